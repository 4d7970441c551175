(** C127, C128: what arrives at a program's sockets and what it reads from them. *)
From Coq Require Import ZArith Bool String List Lia.
From Verif Require Import Outcome ResultModel CanFrameModel SocketCanModel SocketCanSpec GroupModel GroupSpec ManagerModel ManagerSpec
  ClientModel ClientSpec TrafficSpec TrafficProofs Props_SocketCan Props_Group Props_Manager Props_Client.
Import ListNotations.
Open Scope Z_scope.

(** C127, full statement: a frame read from an interface is an extended frame selected by one of the filters the program last
    asked for with success,

      life live m ((Read res errno msgs i out, WasRead r count frames) :: h) c k -> in_force h = Some fs -> Forall id_mask fs ->
      Forall (fun f => is_extended (fid f) = true /\ Exists (selected (fid f)) fs) (firstn (Z.to_nat count) frames)

    It is false after a start, because the sockets are bound before the filters are installed, and false after a
    reconfiguration, because frames that wait in a socket's queue are not thrown away. *)
Definition ex_boot : call := Start (Some ex_new_filters) 1 (ex_descriptors (fun _ => false)).
Definition ex_up : client :=
  match perform 4 ex_manager ex_boot (Client None (World [] [])) with Some (Ret (_, c)) => c | _ => Client None (World [] []) end.
Definition ex_reread : call := Read 1 0 [KMsg 0x80000123 2 [1; 2] [] 0] 0 ex_out.
Definition ex_after (o : call) (c : client) : client := match perform 4 ex_manager o c with Some (Ret (_, c')) => c' | _ => c end.
Definition ex_reply (o : call) (c : client) : reply :=
  match perform 4 ex_manager o c with Some (Ret (r, _)) => r | _ => Stopped Failure end.
(** A frame with identifier 0x123 arrived at the first socket before its filters were installed. *)
Definition ex_early : sockets :=
  Sockets (fun fd => if fd =? 3 then [Packet 0x80000123 2 [1; 2]] else []) (fun fd => if fd =? 3 then [Packet 0x80000123 2 [1; 2]] else []).

Lemma ex_reread_legal : forall c, cl_group c <> None -> legal [0; 1; 2] ex_reread c.
Proof.
  intros c G. split; [exact G|]. split; [lia|]. split; [exact ex_out_typed|]. split; [lia|]. split; [|reflexivity].
  repeat constructor; cbn; try lia; intuition discriminate.
Qed.
Lemma ex_up_life : forall k, (forall fd, waiting k fd = arrived k fd) ->
  life [0; 1; 2] ex_manager [(ex_boot, Started Success)] ex_up k.
Proof.
  intros k K. eapply (life_call _ _ _ _ _ ex_boot 4); [apply life_begin| | |exact K].
  - split; [cbn; lia|apply ex_descriptors_fresh].
  - vm_compute. reflexivity.
Qed.

Theorem C127_only_selected_frames_are_read_refuted : exists live m h c k res errno msgs i out r count frames fs,
  (length (m_required m) <= 255)%nat /\ NoDup live /\ In 0 live /\
  life live m ((Read res errno msgs i out, WasRead r count frames) :: h) c k /\ in_force h = Some fs /\ Forall id_mask fs /\
  (exists configs num kernel, h = [(Start configs num kernel, Started Success)]) /\
  Exists (fun f => ~ Exists (selected (fid f)) fs) (firstn (Z.to_nat count) frames).
Proof.
  exists [0; 1; 2], ex_manager, [(ex_boot, Started Success)], (ex_after ex_reread ex_up),
    (Sockets (arrived ex_early) (update (waiting ex_early) 3 [])).
  exists 1, 0, [KMsg 0x80000123 2 [1; 2] [] 0], 0, ex_out, Success, 1,
    (match ex_reply ex_reread ex_up with WasRead _ _ fs => fs | _ => [] end), ex_new_filters.
  split; [cbn; lia|]. split; [repeat constructor; cbn; intuition discriminate|]. split; [now left|]. split.
  { eapply (life_call _ _ _ ex_up ex_early ex_reread 4).
    - apply ex_up_life. reflexivity.
    - apply ex_reread_legal. vm_compute. discriminate.
    - vm_compute. reflexivity.
    - exists []. split; [|vm_compute; reflexivity]. left. split; [lia|]. split; reflexivity. }
  split; [reflexivity|]. split; [repeat constructor; cbn; lia|]. split; [unfold ex_boot; eauto|].
  match goal with |- Exists _ ?l => assert (L : exists f, l = [f] /\ fid f = 0x80000123) end.
  { eexists. split; vm_compute; reflexivity. }
  destruct L as (f & -> & FI). constructor. rewrite FI. intros X. inversion X as [? ? S|? ? S]; subst; [|inversion S].
  specialize (S 10 ltac:(lia) eq_refl). discriminate.
Qed.
Print Assumptions C127_only_selected_frames_are_read_refuted.
(** Here nothing arrives before the filters are installed: a frame that they select arrives, the program asks for other filters
    with success, and then reads it. *)
Definition ex_other : call := Reconfigure (fun _ => ex_sockopt) (Some ex_filters) 2.
Definition ex_still : call := Read 1 0 [KMsg 0x80000577 2 [1; 2] [] 0] 0 ex_out.
Theorem C127_reconfiguration_keeps_frames_refuted : exists live m h c k res errno msgs i out r count frames fs,
  (length (m_required m) <= 255)%nat /\ NoDup live /\ In 0 live /\
  life live m ((Read res errno msgs i out, WasRead r count frames) :: h) c k /\ in_force h = Some fs /\ Forall id_mask fs /\
  (exists h' ans configs num c1 k1, h = (Reconfigure ans configs num, Reconfigured Success) :: h' /\
     life live m h' c1 k1 /\ forall fd, waiting k1 fd = []) /\
  Exists (fun f => ~ Exists (selected (fid f)) fs) (firstn (Z.to_nat count) frames).
Proof.
  pose (k0 := Sockets (fun _ => []) (fun _ => [])).
  pose (p := Packet 0x80000577 2 [1; 2]).
  pose (k1 := Sockets (update (arrived k0) 3 (arrived k0 3 ++ [p])) (update (waiting k0) 3 (waiting k0 3 ++ [p]))).
  exists [0; 1; 2], ex_manager, [(ex_other, Reconfigured Success); (ex_boot, Started Success)],
    (ex_after ex_still (ex_after ex_other ex_up)), (Sockets (arrived k1) (update (waiting k1) 3 [])).
  exists 1, 0, [KMsg 0x80000577 2 [1; 2] [] 0], 0, ex_out, Success, 1,
    (match ex_reply ex_still (ex_after ex_other ex_up) with WasRead _ _ fs => fs | _ => [] end), ex_filters.
  split; [cbn; lia|]. split; [repeat constructor; cbn; intuition discriminate|]. split; [now left|].
  assert (L0 : life [0; 1; 2] ex_manager [(ex_boot, Started Success)] ex_up k0) by (apply ex_up_life; reflexivity).
  split.
  { eapply (life_call _ _ _ (ex_after ex_other ex_up) k1 ex_still 4).
    - eapply (life_call _ _ _ ex_up k1 ex_other 4); [|split; [vm_compute; discriminate|cbn; lia]|vm_compute; reflexivity|reflexivity].
      apply life_arrival; [exact L0|vm_compute; auto|]. right. eexists. split; [vm_compute; reflexivity|reflexivity].
    - split; [vm_compute; discriminate|]. split; [lia|]. split; [exact ex_out_typed|]. split; [lia|]. split; [|reflexivity].
      repeat constructor; cbn; try lia; intuition discriminate.
    - vm_compute. reflexivity.
    - exists []. split; [|vm_compute; reflexivity]. left. split; [lia|]. split; reflexivity. }
  split; [reflexivity|]. split; [repeat constructor; cbn; lia|]. split.
  { exists [(ex_boot, Started Success)], (fun _ => ex_sockopt), (Some ex_filters), 2%nat, ex_up, k0. auto. }
  match goal with |- Exists _ ?l => assert (L : exists f, l = [f] /\ fid f = 0x80000577) end.
  { eexists. split; vm_compute; reflexivity. }
  destruct L as (f & -> & FI). constructor. rewrite FI. intros X. inversion X as [? ? S|? ? S]; subst.
  - specialize (S 10 ltac:(lia) eq_refl). discriminate.
  - inversion S as [? ? S'|? ? S']; subst; [specialize (S' 24 ltac:(lia) eq_refl); discriminate|inversion S'].
Qed.
Print Assumptions C127_reconfiguration_keeps_frames_refuted.

(** It holds from the moment at which the interface has answered a read, after the filters were configured, with "nothing
    there". (What is read before that moment is stated by C127_only_waiting_frames_are_unselected.) *)
Theorem C127_only_selected_frames_are_read_partial : forall live m h c k res errno msgs i out r count frames fs,
  (length (m_required m) <= 255)%nat -> NoDup live ->
  life live m ((Read res errno msgs i out, WasRead r count frames) :: h) c k ->
  in_force h = Some fs -> Forall id_mask fs -> Z.of_nat (length fs) < 2 ^ 29 -> drained i h ->
  Forall (fun f => is_extended (fid f) = true /\ Exists (selected (fid f)) fs) (firstn (Z.to_nat count) frames).
Proof. exact drained_reads. Qed.
Print Assumptions C127_only_selected_frames_are_read_partial.
(** Exactly what is read from a moment on at which the filters [fs] are in force, until filters are changed: first the messages
    that waited at that moment, then those that arrived since, in order. All frames but the first, at most as many as waited, are
    extended frames that [fs] select. *)
Theorem C127_only_waiting_frames_are_unselected : forall live m h0 c0 k0 fs h c k i g s, (length (m_required m) <= 255)%nat -> NoDup live ->
  life live m h0 c0 k0 -> in_force h0 = Some fs -> Forall id_mask fs -> Z.of_nat (length fs) < 2 ^ 29 ->
  goes_on live m c0 k0 h c k -> 0 <= i -> cl_group c = Some g -> nth_error g (Z.to_nat i) = Some s ->
  exists taken later, taken ++ waiting k (getSocketDescriptor s) = waiting k0 (getSocketDescriptor s) ++ later /\
    Forall2 shows (List.filter readable taken) (frames_read i h) /\
    Forall (fun f => is_extended (fid f) = true /\ Exists (selected (fid f)) fs)
      (skipn (length (List.filter readable (waiting k0 (getSocketDescriptor s)))) (frames_read i h)).
Proof. exact late_frames. Qed.
Print Assumptions C127_only_waiting_frames_are_unselected.

(** C128. From what arrived at a socket since the group was started, the program has read a first part: of that it was shown,
    in order and once each, all but the messages that are never shown. What it was not shown waits. *)
Theorem C128_nothing_lost_repeated_or_reordered : forall live m h c k i g s, (length (m_required m) <= 255)%nat -> NoDup live ->
  life live m h c k -> 0 <= i -> cl_group c = Some g -> nth_error g (Z.to_nat i) = Some s ->
  exists taken, arrived k (getSocketDescriptor s) = taken ++ waiting k (getSocketDescriptor s) /\
    Forall2 shows (List.filter readable taken) (frames_read i h).
Proof. intros live m h c k i g s LEN ND L. exact (stream live m h c k LEN ND L i g s). Qed.
Print Assumptions C128_nothing_lost_repeated_or_reordered.
(** When it is told that nothing is there, it has been shown everything. *)
Theorem C128_nothing_means_all_was_read : forall live m h c k res errno msgs i out r count frames g s,
  (length (m_required m) <= 255)%nat -> NoDup live ->
  life live m h c k -> cl_group c = Some g -> nth_error g (Z.to_nat i) = Some s ->
  legal live (Read res errno msgs i out) c -> forall fuel c' k',
  perform fuel m (Read res errno msgs i out) c = Some (Ret (WasRead r count frames, c')) ->
  effect (Read res errno msgs i out) (WasRead r count frames) c k k' -> r = SuccessNothing ->
  Forall2 shows (List.filter readable (arrived k' (getSocketDescriptor s))) (frames_read i h).
Proof. exact nothing_read. Qed.
Print Assumptions C128_nothing_means_all_was_read.

(** A program that starts with an unselected frame in the first queue reads it, reads until nothing is there, and then gets an
    error message, a frame that the filters select and another one, of which it reads the first two. *)
Definition ex_empty : call := Read (-1) EWOULDBLOCK [] 0 ex_out.
Definition ex_two : call := Read 2 0 [KMsg 0x20000041 8 [] [] 0; KMsg 0x80000577 2 [1; 2] [] 0] 0 ex_out.
Definition ex_now (n : nat) : client :=
  match n with
  | 1%nat => ex_up | 2%nat => ex_after ex_reread ex_up | 3%nat => ex_after ex_empty (ex_after ex_reread ex_up)
  | _ => ex_after ex_two (ex_after ex_empty (ex_after ex_reread ex_up))
  end.
Definition ex_read_all : list (call * reply) :=
  [(ex_empty, ex_reply ex_empty (ex_now 2)); (ex_reread, ex_reply ex_reread ex_up); (ex_boot, Started Success)].
Definition ex_put (p : packet) (k : sockets) : sockets :=
  Sockets (update (arrived k) 3 (arrived k 3 ++ [p])) (update (waiting k) 3 (waiting k 3 ++ [p])).
Definition ex_then (q : list packet) (k : sockets) : sockets := Sockets (arrived k) (update (waiting k) 3 q).
Definition ex_queues : sockets :=
  ex_put (Packet 0x80000578 0 []) (ex_put (Packet 0x80000577 2 [1; 2]) (ex_put (Packet 0x20000041 8 [])
    (ex_then [] (ex_then [] ex_early)))).
Example C127_case : exists k, life [0; 1; 2] ex_manager ((ex_two, ex_reply ex_two (ex_now 3)) :: ex_read_all) (ex_now 4) k /\
  in_force ex_read_all = Some ex_new_filters /\ drained 0 ex_read_all /\
  arrived k 3 = [Packet 0x80000123 2 [1; 2]; Packet 0x20000041 8 []; Packet 0x80000577 2 [1; 2]; Packet 0x80000578 0 []] /\
  waiting k 3 = [Packet 0x80000578 0 []] /\
  map fid (frames_read 0 ((ex_two, ex_reply ex_two (ex_now 3)) :: ex_read_all)) = [0x80000123; 0x80000577].
Proof.
  exists (ex_then [Packet 0x80000578 0 []] ex_queues). split; [|split; [reflexivity|split; [left; split; reflexivity|]]].
  2:{ split; [reflexivity|]. split; [reflexivity|]. vm_compute. reflexivity. }
  eapply (life_call _ _ _ (ex_now 3) ex_queues ex_two 4).
  - unfold ex_queues. apply life_arrival; [apply life_arrival; [apply life_arrival|vm_compute; auto|]|vm_compute; auto|].
    + eapply (life_call _ _ _ (ex_now 2) (ex_then [] ex_early) ex_empty 4).
      * eapply (life_call _ _ _ ex_up ex_early ex_reread 4).
        -- apply ex_up_life. reflexivity.
        -- apply ex_reread_legal. vm_compute. discriminate.
        -- vm_compute. reflexivity.
        -- exists []. split; [|vm_compute; reflexivity]. left. split; [lia|]. split; reflexivity.
      * split; [vm_compute; discriminate|]. split; [lia|]. split; [exact ex_out_typed|]. split; [lia|]. split; [constructor|lia].
      * vm_compute. reflexivity.
      * exists []. split; [|vm_compute; reflexivity]. right. split; [lia|]. split; reflexivity.
    + vm_compute. auto.
    + left. reflexivity.
    + right. eexists. split; [vm_compute; reflexivity|reflexivity].
    + right. eexists. split; [vm_compute; reflexivity|reflexivity].
  - split; [vm_compute; discriminate|]. split; [lia|]. split; [exact ex_out_typed|]. split; [lia|]. split; [|reflexivity].
    repeat constructor; cbn; try lia; intuition discriminate.
  - vm_compute. reflexivity.
  - exists [Packet 0x80000578 0 []]. split; [|vm_compute; reflexivity]. left. split; [lia|]. split; reflexivity.
Qed.
(** The same, seen from the moment after the start: of the frames read since, the first is the one that waited then. *)
Example C127_waiting_case : exists k h, life [0; 1; 2] ex_manager [(ex_boot, Started Success)] ex_up ex_early /\
  goes_on [0; 1; 2] ex_manager ex_up ex_early h (ex_now 4) k /\
  waiting ex_early 3 = [Packet 0x80000123 2 [1; 2]] /\ map fid (frames_read 0 h) = [0x80000123; 0x80000577].
Proof.
  exists (ex_then [Packet 0x80000578 0 []] ex_queues),
    [(ex_two, ex_reply ex_two (ex_now 3)); (ex_empty, ex_reply ex_empty (ex_now 2)); (ex_reread, ex_reply ex_reread ex_up)].
  split; [apply ex_up_life; reflexivity|]. split; [|split; [reflexivity|vm_compute; reflexivity]].
  eapply (on_call _ _ _ _ _ (ex_now 3) ex_queues ex_two 4).
  - unfold ex_queues. apply on_arrival; [apply on_arrival; [apply on_arrival|vm_compute; auto|]|vm_compute; auto|].
    + eapply (on_call _ _ _ _ _ (ex_now 2) (ex_then [] ex_early) ex_empty 4).
      * eapply (on_call _ _ _ _ _ ex_up ex_early ex_reread 4).
        -- apply on_here.
        -- apply ex_reread_legal. vm_compute. discriminate.
        -- vm_compute. reflexivity.
        -- exists []. split; [|vm_compute; reflexivity]. left. split; [lia|]. split; reflexivity.
        -- exact I.
      * split; [vm_compute; discriminate|]. split; [lia|]. split; [exact ex_out_typed|]. split; [lia|]. split; [constructor|lia].
      * vm_compute. reflexivity.
      * exists []. split; [|vm_compute; reflexivity]. right. split; [lia|]. split; reflexivity.
      * exact I.
    + vm_compute. auto.
    + left. reflexivity.
    + right. eexists. split; [vm_compute; reflexivity|reflexivity].
    + right. eexists. split; [vm_compute; reflexivity|reflexivity].
  - split; [vm_compute; discriminate|]. split; [lia|]. split; [exact ex_out_typed|]. split; [lia|]. split; [|reflexivity].
    repeat constructor; cbn; try lia; intuition discriminate.
  - vm_compute. reflexivity.
  - exists [Packet 0x80000578 0 []]. split; [|vm_compute; reflexivity]. left. split; [lia|]. split; reflexivity.
  - exact I.
Qed.
(** C128: the same program after its first read. The frame that waited at the start has been read; the next read finds the queue
    empty and says so, and of what arrived everything was shown. *)
Example C128_case : exists g s, cl_group (ex_now 2) = Some g /\ nth_error g 0 = Some s /\ getSocketDescriptor s = 3 /\
  life [0; 1; 2] ex_manager [(ex_reread, ex_reply ex_reread ex_up); (ex_boot, Started Success)] (ex_now 2) (ex_then [] ex_early) /\
  legal [0; 1; 2] ex_empty (ex_now 2) /\
  perform 4 ex_manager ex_empty (ex_now 2) = Some (Ret (ex_reply ex_empty (ex_now 2), ex_now 3)) /\
  effect ex_empty (ex_reply ex_empty (ex_now 2)) (ex_now 2) (ex_then [] ex_early) (ex_then [] (ex_then [] ex_early)) /\
  (exists count frames, ex_reply ex_empty (ex_now 2) = WasRead SuccessNothing count frames) /\
  map fid (frames_read 0 [(ex_reread, ex_reply ex_reread ex_up); (ex_boot, Started Success)]) = [0x80000123] /\
  arrived (ex_then [] (ex_then [] ex_early)) 3 = [Packet 0x80000123 2 [1; 2]].
Proof.
  eexists. eexists. split; [vm_compute; reflexivity|]. split; [reflexivity|]. split; [reflexivity|].
  split; [eapply (life_call _ _ _ ex_up ex_early ex_reread 4)|].
  - apply ex_up_life. reflexivity.
  - apply ex_reread_legal. vm_compute. discriminate.
  - vm_compute. reflexivity.
  - exists []. split; [|vm_compute; reflexivity]. left. split; [lia|]. split; reflexivity.
  - split; [split; [vm_compute; discriminate|]; split; [lia|]; split; [exact ex_out_typed|]; split; [lia|]; split; [constructor|lia]|].
    split; [vm_compute; reflexivity|].
    split; [exists []; split; [|vm_compute; reflexivity]; right; split; [lia|]; split; reflexivity|].
    split; [eexists; eexists; vm_compute; reflexivity|]. split; [vm_compute; reflexivity|reflexivity].
Qed.
