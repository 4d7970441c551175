(** C68, C71-C74, C81: starting and stopping groups of SocketCAN interfaces. *)
From Coq Require Import ZArith Bool String List Lia Permutation Sorted.
From Verif Require Import Outcome ResultModel CanFrameModel SocketCanModel SocketCanSpec SocketCanHist GroupModel GroupSpec
  ManagerModel ManagerSpec ManagerProofs Props_Group.
Import ListNotations.
Open Scope Z_scope.

(** A manager for three interfaces, and a kernel that opens every one of them except those for which [bad] holds, giving the
    descriptors 3, 4, 5. *)
Definition ex_manager : manager := Manager ["vcan0"; "vcan1"; "vcan2"]%string true true.
Definition ex_answers (bad : nat -> bool) (t : nat) (tr : list event) : answers :=
  Answers (3 + Z.of_nat t) 0 0 0 (if bad t then -1 else 7) 0 0 ex_sockopt.

(** C68 for startInterfaceGroup. *)
Theorem C68_start_terminates_refuted : exists m configs num, forall kernel out w fuel,
  startInterfaceGroup fuel m configs num kernel out w = None.
Proof.
  exists (Manager (repeat "can0"%string 256) false false), (Some []), 0%nat. intros kernel out w fuel.
  unfold startInterfaceGroup. rewrite start_diverges; [reflexivity|cbn; lia|apply Compare_dec.leb_complete; vm_compute; reflexivity|lia].
Qed.
Print Assumptions C68_start_terminates_refuted.
Theorem C68_start_terminates_iff : forall m configs num, configs_ok configs num ->
  ((exists fuel, forall kernel out w, startInterfaceGroup fuel m configs num kernel out w <> None) <->
   (length (m_required m) <= 255)%nat).
Proof.
  intros m configs num OK. split.
  - intros [fuel H]. destruct (Compare_dec.le_lt_dec (length (m_required m)) 255); auto. exfalso.
    apply (H (fun _ _ => Answers 0 0 0 0 0 0 0 (fun _ _ => 0)) None (World [] [])). unfold startInterfaceGroup.
    rewrite start_diverges; auto. lia.
  - intros L. exists (S (length (m_required m))). intros kernel out w.
    destruct (start_spec m configs num kernel out w OK L) as (ans & r & out' & w' & X & _). rewrite X by lia. discriminate.
Qed.
Print Assumptions C68_start_terminates_iff.
Example C68_case : configs_ok (Some ex_filters) 2 /\ (length (m_required ex_manager) <= 255)%nat /\
  startInterfaceGroup 4 ex_manager (Some ex_filters) 2 (ex_answers (fun _ => false)) None (World [] []) <> None.
Proof. split; [cbn; lia |]. split; [cbn; lia |]. vm_compute. discriminate. Qed.

(** C71. [ans] are the kernel's answers to the attempts, in the order of the names. *)
Theorem C71_start_reports_redundancy : forall m configs num kernel out w, configs_ok configs num -> (length (m_required m) <= 255)%nat ->
  exists ans r out' w',
    (forall fuel, (length (m_required m) < fuel)%nat ->
       startInterfaceGroup fuel m configs num kernel out w = Some (Ret (r, out', w'))) /\
    length ans = length (m_required m) /\
    (forall t a, nth_error ans t = Some a -> answered_during kernel t (w_trace w') a) /\
    (r = NotFound <-> Forall2 (fun name a => ~ comes_up m configs num name a) (m_required m) ans) /\
    (r = Success <-> m_required m <> [] /\ Forall2 (comes_up m configs num) (m_required m) ans) /\
    (r = NotFound \/ r = Success \/ r = SuccessPartial) /\
    (r = NotFound -> out' = out) /\
    (r <> NotFound -> exists g, out' = Some g /\
      (forall t name a, nth_error (m_required m) t = Some name -> nth_error ans t = Some a ->
         (comes_up m configs num name a <-> In (iface_make (Z.of_nat t) name (a_socket a)) g)) /\
      (forall s, In s g -> exists t name a, nth_error (m_required m) t = Some name /\ nth_error ans t = Some a /\
         s = iface_make (Z.of_nat t) name (a_socket a)) /\
      StronglySorted (fun s s' => if_index s < if_index s') g).
Proof. exact start_spec. Qed.
Print Assumptions C71_start_reports_redundancy.
(** The first interface does not come up. *)
Example C71_case : configs_ok (Some ex_filters) 2 /\
  match startInterfaceGroup 4 ex_manager (Some ex_filters) 2 (ex_answers (fun t => (t =? 0)%nat)) None (World [] []) with
  | Some (Ret (r, Some g, w)) => r = SuccessPartial /\ g = [iface_make 1 "vcan1" 4; iface_make 2 "vcan2" 5] /\
      w_trace w = [Opened 3; Closed 3; Opened 4; Opened 5]
  | _ => False end.
Proof. split; [cbn; lia|]. vm_compute. auto. Qed.

(** C72. Full statement: if the result is a failure then [out' = None]. *)
Theorem C72_null_after_failed_start_refuted : exists m configs num kernel out w r out' w' fuel,
  startInterfaceGroup fuel m configs num kernel out w = Some (Ret (r, out', w')) /\ isFailure r = true /\ out' <> None.
Proof.
  exists ex_manager, (Some ex_filters), 2%nat, (ex_answers (fun _ => true)), (Some ex_group), (World [] []).
  do 3 eexists. exists 4%nat. split; [vm_compute; reflexivity|]. split; [reflexivity|discriminate].
Qed.
Print Assumptions C72_null_after_failed_start_refuted.
Theorem C72_failed_start_keeps_pointer : forall m configs num kernel out w r out' w' fuel,
  configs_ok configs num -> (length (m_required m) <= 255)%nat -> (length (m_required m) < fuel)%nat ->
  startInterfaceGroup fuel m configs num kernel out w = Some (Ret (r, out', w')) -> isFailure r = true ->
  r = NotFound /\ out' = out /\ (out' = None <-> out = None).
Proof.
  intros m configs num kernel out w r out' w' fuel OK L F E R.
  destruct (start_spec m configs num kernel out w OK L) as (ans & r1 & o1 & w1 & X & _ & _ & _ & _ & C & K & _).
  rewrite (X fuel F) in E. injection E as -> -> ->. destruct C as [->|[->| ->]]; try discriminate. rewrite (K eq_refl). tauto.
Qed.
Print Assumptions C72_failed_start_keeps_pointer.
Example C72_case : match startInterfaceGroup 4 ex_manager (Some ex_filters) 2 (ex_answers (fun _ => true)) None (World [] []) with
  | Some (Ret (r, o, w)) => r = NotFound /\ o = None | _ => False end.
Proof. vm_compute. auto. Qed.

(** C73. Full statement: for every kernel that hands out descriptors that are not open, starting leaves exactly the
    descriptors open that were open before and not owned by the caller's group, and those owned by its new group. *)
Theorem C73_no_socket_leaked_refuted : exists m configs num kernel live r out' w' fuel live',
  fresh_descriptors live kernel /\ NoDup live /\
  startInterfaceGroup fuel m configs num kernel None (World [] []) = Some (Ret (r, out', w')) /\
  replay live (w_trace w') = Some live' /\ ~ Permutation live' (live ++ owned out').
Proof.
  exists (Manager ["can0"%string] false false), (Some ex_filters), 2%nat,
    (fun _ tr => Answers (match tr with [] => 0 | _ => -1 end) 0 0 0 0 0 0 ex_sockopt), [1; 2].
  do 3 eexists. exists 2%nat. eexists. split; [|split; [|split; [vm_compute; reflexivity|split; [vm_compute; reflexivity|]]]].
  - intros t [|e tr] now R; cbn [a_socket]; [|lia]. injection R as <-. cbn. intuition lia.
  - repeat constructor; cbn; intuition lia.
  - intros P. apply Permutation_length in P. discriminate.
Qed.
Print Assumptions C73_no_socket_leaked_refuted.
(** What is leaked can only be descriptor 0. *)
Theorem C73_only_descriptor_0_is_leaked : forall fuel m configs num kernel out log live other r out' w',
  configs_ok configs num -> fresh_descriptors live kernel -> NoDup live -> Permutation live (other ++ owned out) ->
  startInterfaceGroup fuel m configs num kernel out (World [] log) = Some (Ret (r, out', w')) ->
  exists live' leaked, replay live (w_trace w') = Some live' /\ NoDup live' /\ Forall (eq 0) leaked /\
    Permutation live' (other ++ leaked ++ owned out').
Proof. exact start_live. Qed.
Print Assumptions C73_only_descriptor_0_is_leaked.
(** Nothing is leaked if descriptor 0 is in use, outside the group, at the beginning (as standard input normally is). *)
Theorem C73_no_socket_leaked_partial : forall fuel m configs num kernel out log live other r out' w',
  configs_ok configs num -> fresh_descriptors live kernel -> NoDup live -> Permutation live (other ++ owned out) -> In 0 other ->
  startInterfaceGroup fuel m configs num kernel out (World [] log) = Some (Ret (r, out', w')) ->
  exists live', replay live (w_trace w') = Some live' /\ NoDup live' /\ Permutation live' (other ++ owned out').
Proof.
  intros fuel m configs num kernel out log live other r out' w' OK FR ND P Z0 E.
  destruct (start_live fuel m configs num kernel out log live other r out' w' OK FR ND P E) as (live' & leaked & A & B & C & D).
  exists live'. split; [auto|]. split; [auto|]. destruct leaked as [|z leaked]; [exact D|]. exfalso.
  inversion C; subst. eapply Permutation_NoDup in D; [|exact B]. apply NoDup_remove_2 in D. apply D.
  apply in_or_app. now left.
Qed.
Print Assumptions C73_no_socket_leaked_partial.
(** Stopping closes each descriptor of the group exactly once, and no other. *)
Theorem C73_stop_closes_each_once : forall out live other, NoDup live -> Permutation live (other ++ owned out) -> forall log r out' w',
  stopInterfaceGroup out (World [] log) = (r, out', w') ->
  r = Success /\ out' = None /\ exists live', replay live (w_trace w') = Some live' /\ Permutation live' other.
Proof. exact stop_live. Qed.
Print Assumptions C73_stop_closes_each_once.
(** A kernel that hands out one more than the largest open descriptor, with descriptors 0, 1 and 2 open. *)
Definition ex_descriptors (bad : nat -> bool) (t : nat) (tr : list event) : answers :=
  Answers (match replay [0; 1; 2] tr with Some now => 1 + fold_right Z.max 0 now | None => -1 end)
    0 0 0 (if bad t then -1 else 7) 0 0 ex_sockopt.
Example C73_case : fresh_descriptors [0; 1; 2] (ex_descriptors (fun t => (t =? 1)%nat)) /\ NoDup [0; 1; 2] /\
  match startInterfaceGroup 4 ex_manager (Some ex_filters) 2 (ex_descriptors (fun t => (t =? 1)%nat)) None (World [] []) with
  | Some (Ret (r, out, w)) => r = SuccessPartial /\ owned out = [3; 4] /\ w_trace w = [Opened 3; Opened 4; Closed 4; Opened 4] /\
      replay [0; 1; 2] (w_trace w) = Some [4; 3; 0; 1; 2]
  | _ => False end.
Proof.
  split; [|split; [repeat constructor; cbn; intuition lia|vm_compute; auto]].
  intros t tr now R _ I. unfold ex_descriptors in I. cbn [a_socket] in I. rewrite R in I.
  assert (M : forall l x, In x l -> x <= fold_right Z.max 0 l).
  { induction l as [|y l IH]; intros x X; [destruct X|]. cbn [fold_right]. destruct X as [->|X]; [lia|]. specialize (IH x X). lia. }
  apply M in I. lia.
Qed.

(** C74. Full statement: [getInterfaceIndex s = k] for the interface [s] at position [k] of a started group. *)
Theorem C74_indices_are_positions_refuted : exists m configs num kernel w r g w' fuel k s,
  startInterfaceGroup fuel m configs num kernel None w = Some (Ret (r, Some g, w')) /\ isSuccess r = true /\
  nth_error g k = Some s /\ getInterfaceIndex s <> Z.of_nat k.
Proof.
  exists ex_manager, (Some ex_filters), 2%nat, (ex_answers (fun t => (t =? 0)%nat)), (World [] []).
  do 3 eexists. exists 4%nat, 0%nat. eexists. split; [vm_compute; reflexivity|]. split; [reflexivity|].
  split; [reflexivity|]. cbn. lia.
Qed.
Print Assumptions C74_indices_are_positions_refuted.
(** They are exactly when the interfaces that came up are the first ones of the list. *)
Theorem C74_indices_are_positions_iff : forall m configs num kernel out w r g w' fuel, configs_ok configs num ->
  (length (m_required m) <= 255)%nat -> (length (m_required m) < fuel)%nat ->
  startInterfaceGroup fuel m configs num kernel out w = Some (Ret (r, Some g, w')) -> r <> NotFound ->
  exists ans, length ans = length (m_required m) /\ (forall t a, nth_error ans t = Some a -> answered_during kernel t (w_trace w') a) /\
    ((forall k s, nth_error g k = Some s -> getInterfaceIndex s = Z.of_nat k) <->
     exists p, forall t name a, nth_error (m_required m) t = Some name -> nth_error ans t = Some a ->
       (comes_up m configs num name a <-> (t < p)%nat)).
Proof. exact indices_are_positions_iff. Qed.
Print Assumptions C74_indices_are_positions_iff.
Example C74_case : match startInterfaceGroup 4 ex_manager (Some ex_filters) 2 (ex_answers (fun _ => false)) None (World [] []) with
  | Some (Ret (r, Some g, w)) => r = Success /\ map getInterfaceIndex g = [0; 1; 2] | _ => False end.
Proof. vm_compute. auto. Qed.

(** C81. *)
Theorem C81_started_group_filters_as_requested : forall fuel m cs n kernel out w r g w', (1 <= n <= length cs)%nat -> Z.of_nat n < 2 ^ 29 ->
  Forall id_mask cs -> startInterfaceGroup fuel m (Some cs) n kernel out w = Some (Ret (r, Some g, w')) -> r <> NotFound ->
  forall s, In s g -> exists fs, filters_of (getSocketDescriptor s) (w_filters w') = Some fs /\
    forall x, is_error x = false -> 0 <= x < 2 ^ 32 ->
      (kernel_passes fs x = true <-> is_extended x = true /\ Exists (selected x) (firstn n cs)).
Proof. exact started_group_filters. Qed.
Print Assumptions C81_started_group_filters_as_requested.
Example C81_case : Forall id_mask ex_filters /\
  match startInterfaceGroup 4 ex_manager (Some ex_filters) 2 (ex_answers (fun _ => false)) None (World [] []) with
  | Some (Ret (r, Some g, w)) => r = Success /\ match filters_of 4 (w_filters w) with
      | Some fs => kernel_passes fs 0x80000123 = true /\ kernel_passes fs 0x80000124 = false | None => False end
  | _ => False end.
Proof. split; [repeat constructor; cbn; lia|]. vm_compute. auto. Qed.
