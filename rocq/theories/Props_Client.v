(** C121, C122: programs that use the interface manager for as long as they like. *)
From Coq Require Import ZArith Bool String List Lia Permutation.
From Verif Require Import Outcome ResultModel CanFrameModel SocketCanModel SocketCanSpec GroupModel GroupSpec ManagerModel ManagerSpec
  GroupProofs ClientModel ClientSpec ClientProofs Props_SocketCan Props_Group Props_Manager.
Import ListNotations.
Open Scope Z_scope.

(** C121. Every legal call of a program that manages at most 255 interfaces returns, whatever it did before. *)
Theorem C121_every_call_returns : forall live m h c o, (length (m_required m) <= 255)%nat -> history live m h c -> legal live o c ->
  exists r c', forall fuel, (255 < fuel)%nat -> perform fuel m o c = Some (Ret (r, c')).
Proof.
  intros live m h c o LEN H LG. destruct (perform_ok live m o c LEN (history_ok live m h c LEN H) LG) as (r & c' & E & _). eauto.
Qed.
Print Assumptions C121_every_call_returns.
(** At every moment the open descriptors are those open at the beginning and those of the program's group, nothing was closed
    that was not open, and no two interfaces share a descriptor; provided that descriptor 0 is in use at the beginning. *)
Theorem C121_sockets_open_exactly_while_owned : forall live m h c, NoDup live -> In 0 live -> history live m h c ->
  exists now, replay live (w_trace (cl_world c)) = Some now /\ NoDup now /\ Permutation now (live ++ owned (cl_group c)).
Proof.
  intros live m h c ND I H. destruct (history_sockets live m h c ND H) as (now & zeros & R & N & Z & P).
  exists now. assert (zeros = []) by (eapply zeros_none; eauto). subst zeros. auto.
Qed.
Print Assumptions C121_sockets_open_exactly_while_owned.
(** If it is not, it may be leaked once, and nothing else. *)
Theorem C121_only_descriptor_0_is_leaked : forall live m h c, NoDup live -> history live m h c ->
  exists now leaked, replay live (w_trace (cl_world c)) = Some now /\ NoDup now /\
    Permutation now (live ++ leaked ++ owned (cl_group c)) /\ (leaked = [] \/ leaked = [0]).
Proof.
  intros live m h c ND H. destruct (history_sockets live m h c ND H) as (now & zeros & R & N & Z & P).
  exists now, zeros. split; [auto|]. split; [auto|]. split; [auto|]. destruct zeros as [|a [|b zeros]]; auto.
  - inversion Z; subst. auto.
  - exfalso. inversion Z as [|? ? <- Z2]; subst. inversion Z2; subst. rewrite P in N.
    apply NoDup_remove_2 in N. apply N. apply in_or_app. right. now left.
Qed.
Print Assumptions C121_only_descriptor_0_is_leaked.

(** C122. In every state, each socket of the group passes exactly the extended frames selected by the filters the program last
    asked for with success. *)
Theorem C122_last_configuration_is_in_force : forall live m h c fs g s, (length (m_required m) <= 255)%nat -> NoDup live ->
  history live m h c -> in_force h = Some fs -> Forall id_mask fs -> Z.of_nat (length fs) < 2 ^ 29 ->
  cl_group c = Some g -> In s g ->
  exists kfs, filters_of (getSocketDescriptor s) (w_filters (cl_world c)) = Some kfs /\
    forall w, not_error w -> (kernel_passes kfs w = true <-> is_extended w = true /\ Exists (selected w) fs).
Proof.
  intros live m h c fs g s LEN ND H IF IM B G I. exists (map kconv fs). split.
  - eapply history_filters; eauto.
  - now apply kconv_passes.
Qed.
Print Assumptions C122_last_configuration_is_in_force.
(** So a frame that the program reads is an extended frame selected by one of them, if the kernel delivers only error messages
    and frames that pass the socket's filters. *)
Theorem C122_frames_read_were_asked_for : forall live m h c fs fuel res errno msgs i out r count frames c' g s,
  (length (m_required m) <= 255)%nat -> NoDup live -> history live m h c ->
  in_force h = Some fs -> Forall id_mask fs -> Z.of_nat (length fs) < 2 ^ 29 ->
  cl_group c = Some g -> nth_error g (Z.to_nat i) = Some s -> legal live (Read res errno msgs i out) c ->
  (forall k, In k msgs -> is_error (km_id k) = false ->
     exists kfs, filters_of (getSocketDescriptor s) (w_filters (cl_world c)) = Some kfs /\ kernel_passes kfs (km_id k) = true) ->
  perform fuel m (Read res errno msgs i out) c = Some (Ret (WasRead r count frames, c')) ->
  Forall (fun f => is_extended (fid f) = true /\ Exists (selected (fid f)) fs) (firstn (Z.to_nat count) frames).
Proof. exact history_read. Qed.
Print Assumptions C122_frames_read_were_asked_for.

(** A program starts a group of which the second interface does not come up, writes, tries to start it again when no interface
    comes up, installs other filters, and reads a frame and an error message. *)
Definition ex_new_filters : list filter := [Filter 0x500 0x1FFFFF00].
Definition ex_calls : list call :=
  [Start (Some ex_filters) 2 (ex_descriptors (fun t => (t =? 1)%nat));
   Write (ex_kernel 2 0) 1 ex_frames 2;
   Start (Some ex_filters) 1 (ex_descriptors (fun _ => true));
   Reconfigure (fun _ => ex_sockopt) (Some ex_new_filters) 1].
Definition ex_read : call := Read 2 0 [KMsg 0x80000577 2 [1; 2] [] 0; KMsg 0x20000041 8 [] [] 0] 0 ex_out.
Lemma ex_descriptors_fresh : forall bad, fresh_descriptors [0; 1; 2] (ex_descriptors bad).
Proof.
  intros bad t tr now R _ I. unfold ex_descriptors in I. cbn [a_socket] in I. rewrite R in I.
  assert (M : forall l x, In x l -> x <= fold_right Z.max 0 l).
  { induction l as [|y l IH]; intros x X; [destruct X|]. cbn [fold_right]. destruct X as [->|X]; [lia|]. specialize (IH x X). lia. }
  apply M in I. lia.
Qed.
(** What the write hands to the kernel. *)
Definition ex_sent : list canfd :=
  match group_write (ex_kernel 2 0) [iface_make 0 "vcan0" 3; iface_make 2 "vcan2" 4] 1 ex_frames 2 0 with
  | Ret (_, _, _, Some sent) => sent | _ => [] end.
Definition ex_replies : list reply :=
  [Started SuccessPartial; Wrote Success 2 (Some ex_sent); Started NotFound; Reconfigured Success].
Definition ex_state (n : nat) : client :=
  fold_left (fun c o => match perform 4 ex_manager o c with Some (Ret (_, c')) => c' | _ => c end) (firstn n ex_calls)
    (Client None (World [] [])).
Example C121_case : history [0; 1; 2] ex_manager (rev (combine ex_calls ex_replies)) (ex_state 4) /\
  owned (cl_group (ex_state 4)) = [3; 4] /\ legal [0; 1; 2] ex_read (ex_state 4) /\
  w_trace (cl_world (ex_state 4)) =
    [Opened 3; Opened 4; Closed 4; Opened 4; Opened 5; Closed 5; Opened 5; Closed 5; Opened 5; Closed 5].
Proof.
  split; [|split; [vm_compute; reflexivity|split; [|vm_compute; reflexivity]]].
  - cbn [ex_calls ex_replies combine rev app].
    apply (h_call _ _ _ (ex_state 3) _ 4); [apply (h_call _ _ _ (ex_state 2) _ 4); [apply (h_call _ _ _ (ex_state 1) _ 4);
      [apply (h_call _ _ _ (ex_state 0) _ 4); [apply h_begin| |]| |]| |]| |].
    2, 4, 6, 8: vm_compute; reflexivity.
    + split; [cbn; lia|apply ex_descriptors_fresh].
    + split; [vm_compute; discriminate|]. split; [lia|]. split; [exact ex_frames_typed|lia].
    + split; [cbn; lia|apply ex_descriptors_fresh].
    + split; [vm_compute; discriminate|cbn; lia].
  - split; [vm_compute; discriminate|]. split; [lia|]. split; [exact ex_out_typed|]. split; [lia|]. split; [|reflexivity].
    repeat constructor; cbn; try lia; intuition discriminate.
Qed.
Example C122_case : in_force (rev (combine ex_calls ex_replies)) = Some ex_new_filters /\ Forall id_mask ex_new_filters /\
  (match filters_of 4 (w_filters (cl_world (ex_state 4))) with
   | Some kfs => kernel_passes kfs 0x80000577 = true /\ kernel_passes kfs 0x80000123 = false | None => False end) /\
  match perform 4 ex_manager ex_read (ex_state 4) with
  | Some (Ret (WasRead r n fs, _)) => r = Success /\ n = 1 /\ firstn 1 (map fid fs) = [0x80000577] | _ => False end.
Proof.
  split; [reflexivity|]. split; [repeat constructor; cbn; lia|]. split; vm_compute; auto.
Qed.
