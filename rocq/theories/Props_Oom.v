(** C140: running out of memory. *)
From Coq Require Import ZArith Bool String List Lia Permutation.
From Verif Require Import Outcome ResultModel CanFrameModel SocketCanModel GroupModel GroupSpec GroupProofs
  ManagerModel ManagerSpec ManagerProofs ClientProofs OomModel OomSpec OomProofs.
Import ListNotations.
Open Scope Z_scope.

(** C140. Full statement: however often and wherever memory runs out, startInterfaceGroup and reconfigureFilters are defined; what they
    opened and do not hand out is closed; groups, sockets and filters that were there stay as they were. Where new throws this holds,
    descriptor 0 (C73) excepted. *)

(** With enough memory these are the functions of the other properties. *)
Theorem C140_enough_memory : forall mem fuel m configs n kernel out w, plenty mem ->
  start_x mem fuel m configs n kernel out w =
  match startInterfaceGroup fuel m configs n kernel out w with
  | Some (Ret x) => Some (Ret (Returned x)) | Some UB => Some UB | None => None end.
Proof. exact start_x_enough. Qed.
Print Assumptions C140_enough_memory.
(** Running out of memory ends the call with an exception or makes no difference. *)
Theorem C140_returns_or_throws : forall mem m configs n kernel out w, configs_ok configs n -> (List.length (m_required m) <= 255)%nat ->
  forall fuel, (255 < fuel)%nat ->
  (exists x, start_x mem fuel m configs n kernel out w = Some (Ret (Returned x)) /\ startInterfaceGroup fuel m configs n kernel out w = Some (Ret x)) \/
  (exists p w', start_x mem fuel m configs n kernel out w = Some (Ret (Threw (p, w')))).
Proof.
  intros mem m configs n kernel out w OK LEN fuel F. destruct (start_x_defined mem fuel m configs n kernel out w OK LEN ltac:(lia)) as [[x|[p w']] E].
  - left. exists x. split; [exact E|]. eapply start_x_returned; eauto.
  - right. eauto.
Qed.
Print Assumptions C140_returns_or_throws.
(** A start that returns had all the memory it needed: for the list, and if it started a group for the group, its control block, its
    interfaces and the filters of each. *)
Theorem C140_returns_with_memory : forall mem fuel m configs n kernel out w r p w', (List.length (m_required m) <= 255)%nat ->
  start_x mem fuel m configs n kernel out w = Some (Ret (Returned (r, p, w'))) ->
  mem P_reserve = false /\
  (isSuccess r = true -> mem P_group = false /\ mem P_control = false /\ exists g, p = Some g /\
     Forall (fun s => let t := Z.to_nat (if_index s) in mem (P_interface t) = false /\ forall k, (k < n)%nat -> mem (P_filter t k) = false) g).
Proof. exact start_x_had. Qed.
Print Assumptions C140_returns_with_memory.
(** After an exception the caller's pointer is as it was; the sockets that were open are open, and no other than descriptor 0; they have
    their filters. *)
Theorem C140_thrown_start : forall mem fuel m configs n kernel out w before live p w', configs_ok configs n -> fresh_descriptors before kernel ->
  replay before (w_trace w) = Some live -> NoDup live ->
  start_x mem fuel m configs n kernel out w = Some (Ret (Threw (p, w'))) ->
  p = out /\
  (exists live' leaked, replay before (w_trace w') = Some live' /\ NoDup live' /\ Forall (eq 0) leaked /\ Permutation live' (live ++ leaked)) /\
  (forall d, In d live -> filters_of d (w_filters w') = filters_of d (w_filters w)).
Proof. exact start_x_threw. Qed.
Print Assumptions C140_thrown_start.
Theorem C140_thrown_start_leaks_nothing : forall mem fuel m configs n kernel out w before live p w', configs_ok configs n ->
  fresh_descriptors before kernel -> replay before (w_trace w) = Some live -> NoDup live -> In 0 live ->
  start_x mem fuel m configs n kernel out w = Some (Ret (Threw (p, w'))) ->
  exists live', replay before (w_trace w') = Some live' /\ Permutation live' live.
Proof.
  intros mem fuel m configs n kernel out w before live p w' OK FR R ND Z0 E.
  destruct (start_x_threw _ _ _ _ _ _ _ _ _ _ _ _ OK FR R ND E) as (_ & (live' & leaked & A & B & C & D) & _). exists live'. split; [exact A|].
  rewrite <- (app_nil_r leaked) in D. rewrite (zeros_none live leaked [] live' Z0 C B D) in D. cbn in D. now rewrite app_nil_r in D.
Qed.
Print Assumptions C140_thrown_start_leaks_nothing.
(** reconfigureFilters: after an exception the first [k] interfaces have the new filters, and everything else is as it was. *)
Theorem C140_thrown_reconfigure : forall fails fuel g ans configs n log log', configs_ok configs n ->
  NoDup (descriptors g) -> (List.length g <= 255)%nat ->
  reconfigure_loop_x fails fuel 0 0 g ans configs n log = Some (Ret (Threw log')) ->
  exists k, (k < List.length g)%nat /\
    (forall t s, nth_error g t = Some s -> (t < k)%nat -> forall lg, exists lg',
       configureFilters (ans t) (getSocketDescriptor s) configs n lg = Ret (Success, lg') /\
       filters_of (getSocketDescriptor s) log' = filters_of (getSocketDescriptor s) lg') /\
    (forall fd, (forall t s, nth_error g t = Some s -> (t < k)%nat -> getSocketDescriptor s <> fd) -> filters_of fd log' = filters_of fd log).
Proof. intros fails fuel g ans configs n log log' OK ND LEN E. exact (reconfigure_x_threw fails ans configs n OK g [] fuel log log' ND LEN E). Qed.
Print Assumptions C140_thrown_reconfigure.
Theorem C140_reconfigure_returns : forall fails fuel g ans configs n log x, configs_ok configs n ->
  reconfigure_loop_x fails fuel 0 0 g ans configs n log = Some (Ret (Returned x)) -> reconfigureFilters fuel g ans configs n log = Some (Ret x).
Proof. intros fails fuel g ans configs n log x OK E. exact (reconfigure_x_returned fails ans configs n OK _ _ _ _ _ _ E). Qed.
Print Assumptions C140_reconfigure_returns.

(** Where new answers null (the branch of lines 231-235 is written for such builds), a missing interface object counts as an interface
    that did not come up: as if the kernel had refused its filters. *)
Theorem C140_null_interface : forall null fuel m configs n kernel out w before live r p w', configs_ok configs n -> fresh_descriptors before kernel ->
  replay before (w_trace w) = Some live -> NoDup live ->
  start_n null fuel m configs n kernel out w = Some (Ret (r, p, w')) ->
  exists log, startInterfaceGroup fuel m configs n (refusing null kernel) out w = Some (Ret (r, p, World (w_trace w') log)) /\
    forall now d, replay before (w_trace w') = Some now -> In d now -> filters_of d (w_filters w') = filters_of d log.
Proof.
  intros null fuel m configs n kernel out w before live r p w' OK FR R ND E.
  pose proof (start_n_cases null fuel m configs n kernel out w OK) as Q.
  destruct (startInterfaceGroup fuel m configs n (refusing null kernel) out w) as [[[[r1 p1] ws]|]|] eqn:S; [|congruence..].
  destruct (isSuccess r1 && null P_group); [congruence|]. destruct Q as [log Q]. rewrite Q in E.
  assert (w' = World (w_trace ws) log) as W by congruence. assert (r1 = r) as -> by congruence. assert (p1 = p) as -> by congruence.
  exists (w_filters ws). split; [rewrite W; destruct ws; reflexivity|]. intros now d RN I.
  rewrite W in E. rewrite <- Q in E. subst w'. eapply (start_n_filters null fuel m configs n kernel out w before live); eauto.
Qed.
Print Assumptions C140_null_interface.
(** A missing group object does not: the null pointer is used. Exactly: *)
Theorem C140_null_undefined_iff : forall null m configs n kernel out w, configs_ok configs n -> (List.length (m_required m) <= 255)%nat ->
  forall fuel, (255 < fuel)%nat ->
  (start_n null fuel m configs n kernel out w = Some UB <->
   null P_group = true /\ exists r p w', startInterfaceGroup fuel m configs n (refusing null kernel) out w = Some (Ret (r, p, w')) /\ isSuccess r = true).
Proof.
  intros null m configs n kernel out w OK LEN fuel F. pose proof (start_n_cases null fuel m configs n kernel out w OK) as Q.
  destruct (start_spec m configs n (refusing null kernel) out w OK LEN) as (ans & r & p & w' & E & _). rewrite E in Q by lia. rewrite E by lia.
  destruct (isSuccess r) eqn:SU, (null P_group) eqn:NG; cbn [andb] in Q.
  - split; [intros _; split; [reflexivity|]; eauto 10|intros _; exact Q].
  - destruct Q as [log ->]. split; [discriminate|intros [X _]; discriminate].
  - destruct Q as [log ->]. split; [discriminate|]. intros (_ & r2 & p2 & w2 & X & Y). congruence.
  - destruct Q as [log ->]. split; [discriminate|intros [X _]; discriminate].
Qed.
Print Assumptions C140_null_undefined_iff.

(** Two devices. The kernel hands out descriptors 3 and 4. *)
Definition ex_manager : manager := Manager ["can0"; "can1"]%string true true.
Definition ex_kernel (t : nat) (tr : list event) : answers := Answers (3 + Z.of_nat t) 0 0 0 1 0 0 (fun _ _ => 0).
Definition ex_filters : option (list filter) := Some [Filter 1 2].
Theorem C140_null_group_refuted : exists null fuel m configs n kernel w, configs_ok configs n /\
  start_n null fuel m configs n kernel None w = Some UB.
Proof.
  exists (fun p => match p with P_group => true | _ => false end), 300%nat, ex_manager, ex_filters, 1%nat, ex_kernel, (World [] []).
  split; [cbn; lia|]. vm_compute. reflexivity.
Qed.
Print Assumptions C140_null_group_refuted.

(** No memory for the object of the second interface: both sockets are closed. *)
Definition ex_mem (p : place) : bool := match p with P_interface 1 => true | _ => false end.
Example C140_case_start : configs_ok ex_filters 1 /\
  start_x ex_mem 300 ex_manager ex_filters 1 ex_kernel None (World [] []) =
  Some (Ret (Threw (None, World [Opened 3; Opened 4; Closed 4; Closed 3] [(4, [KFilter (2 ^ 31 + 1) (2 ^ 31 + 2)]); (3, [KFilter (2 ^ 31 + 1) (2 ^ 31 + 2)])]))) /\
  replay [0; 1; 2] [Opened 3; Opened 4; Closed 4; Closed 3] = Some [0; 1; 2].
Proof. split; [cbn; lia|]. split; vm_compute; reflexivity. Qed.
Example C140_case_fresh : fresh_descriptors [0; 1; 2] (fun t tr => Answers (match replay [0; 1; 2] tr with
    | Some now => 1 + fold_right Z.max 2 now | None => -1 end) 0 0 0 1 0 0 (fun _ _ => 0)).
Proof.
  intros t tr now R _. cbn [a_socket]. rewrite R. intros I.
  assert (L : forall l x, In x l -> x <= fold_right Z.max 2 l) by (induction l as [|y l IH]; [contradiction|]; intros x [->|Q]; cbn; [|apply IH in Q]; lia).
  apply L in I. lia.
Qed.
(** No memory for a filter of the second of two interfaces. *)
Example C140_case_reconfigure :
  let g := [iface_make 0 "can0" 3; iface_make 1 "can1" 4] in
  reconfigure_loop_x (fun t _ => (t =? 1)%nat) 300 0 0 g (fun _ _ _ => 0) ex_filters 1 [] =
  Some (Ret (Threw [(3, [KFilter (2 ^ 31 + 1) (2 ^ 31 + 2)])])).
Proof. vm_compute. reflexivity. Qed.
(** New answers null for the first interface: the group has the second. *)
Example C140_case_null :
  match start_n (fun p => match p with P_interface 0 => true | _ => false end) 300 ex_manager ex_filters 1 ex_kernel None (World [] []) with
  | Some (Ret (r, Some [s], w)) => r = SuccessPartial /\ getSocketDescriptor s = 4 /\ w_trace w = [Opened 3; Closed 3; Opened 4]
  | _ => False end.
Proof. vm_compute. auto. Qed.
