(** C136: select tells whether there is something to read. *)
From Coq Require Import ZArith Bool String List Lia.
From Verif Require Import Outcome ResultModel CInt SatMathModel SatMathSpec CanFrameModel SocketCanModel SocketCanSpec GroupModel GroupSpec ManagerModel ManagerSpec
  ClientModel ClientSpec TrafficSpec TrafficProofs WaitSpec WaitProofs Props_SocketCan Props_Group Props_Manager Props_Client Props_Traffic.
Import ListNotations.
Open Scope Z_scope.

(** C136. If select, told to ignore write readiness, answers Success, then a read of some interface finds something, even if
    more arrives before it: it does not answer that there is nothing, and if it answers Success the queue has become shorter. *)
Theorem C136_success_means_something_to_read : forall P ppoll t req writable live m h c k g, (length (m_required m) <= 255)%nat ->
  life live m h c k -> cl_group c = Some g ->
  select P ppoll g t true = Ret (Success, req) -> polls k writable req (ppoll req) ->
  exists i s, nth_error g (Z.to_nat i) = Some s /\ 0 <= i < getInterfaceCount g /\
    forall k2, life live m h c k2 -> (forall fd, exists more, waiting k2 fd = waiting k fd ++ more) ->
    forall fuel res errno msgs out r count frames c' k', legal live (Read res errno msgs i out) c ->
      perform fuel m (Read res errno msgs i out) c = Some (Ret (WasRead r count frames, c')) ->
      effect (Read res errno msgs i out) (WasRead r count frames) c k2 k' ->
      r <> SuccessNothing /\
      (r = Success -> (length (waiting k' (getSocketDescriptor s)) < length (waiting k2 (getSocketDescriptor s)))%nat).
Proof.
  intros P ppoll t req writable live m h c k g LEN L G E A.
  destruct (select_ready _ _ _ _ _ _ _ _ E A) as (i & s & N & [W|[W _]]); [|discriminate].
  assert (LG : (i < length g)%nat) by (apply nth_error_Some; congruence).
  assert (CO := ClientProofs.history_ok _ _ _ _ LEN (life_history _ _ _ _ _ L)). unfold ClientProofs.client_ok in CO. rewrite G in CO. destruct CO as [B _].
  exists (Z.of_nat i), s. rewrite Nat2Z.id. split; [exact N|]. split; [unfold getInterfaceCount; lia|].
  intros k2 L2 K2 fuel res errno msgs out r count frames c' k' LR PR EF.
  assert (W2 : waiting k2 (getSocketDescriptor s) <> []).
  { destruct (K2 (getSocketDescriptor s)) as (more & ->). intros X. apply app_eq_nil in X. tauto. }
  destruct (read_finds live m h c k2 (Z.of_nat i) g s fuel res errno msgs out r count frames c' k' LEN L2 G) as [R1 R2]; auto.
  { rewrite Nat2Z.id. exact N. }
  split; [exact R1|]. intros R. apply R2 in R. destruct R as (p & q & -> & LE). cbn [length]. lia.
Qed.
Print Assumptions C136_success_means_something_to_read.

(** If it answers that it timed out, the program has been shown everything that has arrived, at every interface; nothing waits,
    and if write readiness was not ignored no interface is ready for writing. *)
Theorem C136_timeout_means_all_was_read : forall P ppoll t ignore req writable live m h c k g, (length (m_required m) <= 255)%nat ->
  NoDup live -> life live m h c k -> cl_group c = Some g ->
  select P ppoll g t ignore = Ret (SuccessTimeout, req) -> polls k writable req (ppoll req) ->
  forall i s, 0 <= i -> nth_error g (Z.to_nat i) = Some s ->
    waiting k (getSocketDescriptor s) = [] /\
    Forall2 shows (List.filter readable (arrived k (getSocketDescriptor s))) (frames_read i h) /\
    (ignore = false -> ~ writable (getSocketDescriptor s)).
Proof.
  intros P ppoll t ignore req writable live m h c k g LEN ND L G E A i s I N.
  destruct (select_timed_out _ _ _ _ _ _ _ _ E A _ s N) as [W NW]. split; [exact W|]. split; [|exact NW].
  destruct (stream _ _ _ _ _ LEN ND L i g s I G N) as (taken & AR & F). rewrite W, app_nil_r in AR. now rewrite AR.
Qed.
Print Assumptions C136_timeout_means_all_was_read.

(** If write readiness is not ignored, Success means that some interface is ready for reading or for writing. *)
Theorem C136_success_means_ready : forall P ppoll g t ignore req k writable,
  select P ppoll g t ignore = Ret (Success, req) -> polls k writable req (ppoll req) ->
  exists i s, nth_error g i = Some s /\
    (waiting k (getSocketDescriptor s) <> [] \/ ignore = false /\ writable (getSocketDescriptor s)).
Proof. exact select_ready. Qed.
Print Assumptions C136_success_means_ready.

(** A program with a frame in the first of its queues, for which select answers Success, and another one which has read all. *)
Example C136_case : exists g req, cl_group ex_up = Some g /\ life [0; 1; 2] ex_manager [(ex_boot, Started Success)] ex_up ex_early /\
  select lp64 (fun _ => (1, [1; 0; 0])) g 2000000 true = Ret (Success, req) /\
  polls ex_early (fun _ => True) req (1, [1; 0; 0]).
Proof.
  eexists. eexists. split; [vm_compute; reflexivity|]. split; [apply ex_up_life; reflexivity|]. split; [vm_compute; reflexivity|].
  right. split; [reflexivity|]. cbn [pr_fds snd].
  assert (B : forall b, Z.testbit 1 b = true -> b = 0).
  { intros b T. destruct (Z.eq_dec b 0) as [|N]; [auto|]. destruct (Z.neg_nonneg_cases b); [rewrite Z.testbit_neg_r in T by lia; discriminate|].
    rewrite Z.bits_above_log2 in T by (cbn; lia). discriminate. }
  constructor; [|constructor; [|constructor; [|constructor]]]; cbn; (split; [lia|]); (split; [split; [intros X|intros [X1 X2]]|split; [split; [intros X|intros [X1 X2]]|]]);
    try discriminate; try reflexivity; try (split; [reflexivity|discriminate]); try (exfalso; apply X2; reflexivity).
  all: intros b T; rewrite ?Z.bits_0 in T; try discriminate; apply B in T; subst; auto.
Qed.
Example C136_timeout_case : exists g req, cl_group (ex_now 3) = Some g /\
  life [0; 1; 2] ex_manager ex_read_all (ex_now 3) (ex_then [] (ex_then [] ex_early)) /\
  select lp64 (fun _ => (0, [0; 0; 0])) g 2000000 true = Ret (SuccessTimeout, req) /\
  polls (ex_then [] (ex_then [] ex_early)) (fun _ => True) req (0, [0; 0; 0]) /\
  map fid (frames_read 0 ex_read_all) = [0x80000123].
Proof.
  eexists. eexists. split; [vm_compute; reflexivity|]. split; [|split; [vm_compute; reflexivity|split; [|vm_compute; reflexivity]]].
  - eapply (life_call _ _ _ (ex_now 2) (ex_then [] ex_early) ex_empty 4).
    + eapply (life_call _ _ _ ex_up ex_early ex_reread 4).
      * apply ex_up_life. reflexivity.
      * apply ex_reread_legal. vm_compute. discriminate.
      * vm_compute. reflexivity.
      * exists []. split; [|vm_compute; reflexivity]. left. split; [lia|]. split; reflexivity.
    + split; [vm_compute; discriminate|]. split; [lia|]. split; [exact ex_out_typed|]. split; [lia|]. split; [constructor|lia].
    + vm_compute. reflexivity.
    + exists []. split; [|vm_compute; reflexivity]. right. split; [lia|]. split; reflexivity.
  - right. split; [reflexivity|]. cbn [pr_fds snd].
    constructor; [|constructor; [|constructor; [|constructor]]]; cbn; (split; [lia|]);
      (split; [split; [discriminate|intros [_ X]; exfalso; apply X; reflexivity]|split; [split; [discriminate|intros [X _]; discriminate]|]]);
      intros b T; rewrite Z.bits_0 in T; discriminate.
Qed.
