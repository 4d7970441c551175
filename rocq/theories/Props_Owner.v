(** C141: programs with several pointers to interface groups. *)
From Coq Require Import ZArith Bool String List Lia Permutation.
From Verif Require Import Outcome ResultModel CanFrameModel SocketCanModel SocketCanSpec GroupModel GroupSpec GroupProofs
  ManagerModel ManagerSpec ManagerProofs ClientModel ClientSpec ClientProofs OomModel OomSpec OomProofs OwnerModel OwnerSpec OwnerProofs.
Import ListNotations.
Open Scope Z_scope.

(** C141. For a program with any number of pointers that starts groups, stops them, copies and drops pointers and uses groups through
    them in any order, while memory may run out in any call: *)

(** Every call is defined and ends; no group is used after it was destroyed, none is destroyed twice. *)
Theorem C141_every_call_ends : forall live n h s u, NoDup live -> program live n h s -> legal_use live u s ->
  forall fuel, (255 < fuel)%nat -> exists a s', do_use fuel u s = Some (Ret (a, s')).
Proof. intros live n h s u ND H LG fuel F. destruct (program_inv live n h s ND H) as (C & SK & _). eapply use_defined; eauto. Qed.
Print Assumptions C141_every_call_ends.
(** The open sockets are those of the groups that some pointer points to, each once, descriptor 0 (C121) excepted. *)
Theorem C141_open_sockets : forall live n h s, NoDup live -> program live n h s ->
  exists now leaked, replay live (w_trace (o_world s)) = Some now /\ NoDup now /\ Forall (eq 0) leaked /\
    Permutation now (live ++ leaked ++ held s).
Proof. exact program_sockets. Qed.
Print Assumptions C141_open_sockets.
Theorem C141_open_sockets_exactly : forall live n h s, NoDup live -> In 0 live -> program live n h s ->
  exists now, replay live (w_trace (o_world s)) = Some now /\ NoDup now /\
    forall d, In d now <-> In d live \/ exists v i, points s v i /\ In d (descriptors (the_group s i)).
Proof.
  intros live n h s ND Z0 H. destruct (program_sockets live n h s ND H) as (now & zeros & R & N & Z & P). exists now. split; [exact R|]. split; [exact N|].
  rewrite (zeros_none live zeros (held s) now Z0 Z N P) in P. cbn [app] in P. intros d. split.
  - intros I. rewrite P in I. apply in_app_or in I. destruct I as [I|I]; [auto|]. right. unfold held in I. apply in_flat_map in I.
    destruct I as (i & _ & I). destruct (pointed_to s i) eqn:PT; [|contradiction]. unfold pointed_to in PT. apply existsb_exists in PT.
    destruct PT as (p & IP & E). destruct p as [j|]; [|discriminate]. apply Nat.eqb_eq in E. subst j. apply In_nth_error in IP. destruct IP as [v V]. exists v, i. auto.
  - intros [I|(v & i & PV & I)]; rewrite P; apply in_or_app; [auto|]. right. destruct (program_inv live n h s ND H) as (C & _ & _).
    apply (held_in s i d); auto; [|eapply points_pointed; eauto]. apply (ct_in _ _ C). left. unfold points in PV. eapply nth_error_In; eauto.
Qed.
Print Assumptions C141_open_sockets_exactly.
(** use_count() is the number of pointers. *)
Theorem C141_use_count : forall live n h s v i, NoDup live -> program live n h s -> points s v i ->
  exists c, nth_error (o_heap s) i = Some c /\
    c_uses c = List.length (List.filter (fun p => match p with Some j => (j =? i)%nat | None => false end) (o_vars s)).
Proof. exact program_counts. Qed.
Print Assumptions C141_use_count.
(** Groups are independent: what the program does elsewhere leaves pointer, group and filters as they are. *)
Theorem C141_independent : forall live n h s u fuel a s' v i, NoDup live -> program live n h s -> legal_use live u s ->
  do_use fuel u s = Some (Ret (a, s')) -> points s v i -> ~ sets u v -> ~ goes_through u s i ->
  points s' v i /\ the_group s' i = the_group s i /\
  forall d, In d (descriptors (the_group s i)) -> filters_of d (w_filters (o_world s')) = filters_of d (w_filters (o_world s)).
Proof. exact independent. Qed.
Print Assumptions C141_independent.
(** With one pointer and enough memory it is the program of C121, C122 and C132. *)
Theorem C141_one_pointer : forall live h s m o fuel, NoDup live -> program live 1 h s ->
  match perform fuel m o (as_client s) with
  | None => do_use fuel (as_use m o) s = None
  | Some UB => do_use fuel (as_use m o) s = Some UB
  | Some (Ret (r, c)) => exists s', do_use fuel (as_use m o) s = Some (Ret (as_answer r, s')) /\ as_client s' = c
  end.
Proof. exact one_pointer. Qed.
Print Assumptions C141_one_pointer.
(** Each call does to its own pointer and group what the functions of the manager and of groups do. *)
Theorem C141_what_calls_do : forall live n h s u fuel a s', NoDup live -> program live n h s -> legal_use live u s ->
  do_use fuel u s = Some (Ret (a, s')) -> does fuel u s a s'.
Proof. intros live n h s u fuel a s' ND H LG E. destruct (program_inv live n h s ND H) as (C & SK & _). eapply use_does; eauto. Qed.
Print Assumptions C141_what_calls_do.

(** Two pointers. A group is started through the first, the pointer is copied, another group is started through the first: the old group
    is still open. The second pointer is dropped: now it is closed. Then a third start runs out of memory. *)
Definition ex_m : manager := Manager ["can0"; "can1"]%string true true.
Definition ex_kernel (t : nat) (tr : list event) : answers :=
  Answers (match replay [0; 1; 2] tr with Some now => 1 + fold_right Z.max 2 now | None => -1 end) 0 0 0 1 0 0 (fun _ _ => 0).
Lemma ex_fresh : fresh_descriptors [0; 1; 2] ex_kernel.
Proof.
  intros t tr now R _. unfold ex_kernel. cbn [a_socket]. rewrite R. intros I.
  assert (L : forall l x, In x l -> x <= fold_right Z.max 2 l) by (induction l as [|y l IH]; [contradiction|]; intros x [->|Q]; cbn; [|apply IH in Q]; lia).
  apply L in I. lia.
Qed.
Definition ex_uses : list use :=
  [UStart 0 ex_m None 0 ex_kernel (fun _ => false); UCopy 1 0; UStart 0 ex_m None 0 ex_kernel (fun _ => false); UDrop 1;
   UStart 1 ex_m None 0 ex_kernel (fun p => match p with P_group => true | _ => false end)].
Fixpoint run_uses (us : list use) (s : owners) : list (option (list Z)) :=
  match us with
  | [] => []
  | u :: us => match do_use 300 u s with
               | Some (Ret (_, s')) => replay [0; 1; 2] (w_trace (o_world s')) :: run_uses us s'
               | _ => [None]
               end
  end.
Example C141_case : run_uses ex_uses (Owners [] [None; None] (World [] [])) =
  [Some [4; 3; 0; 1; 2]; Some [4; 3; 0; 1; 2]; Some [6; 5; 4; 3; 0; 1; 2]; Some [6; 5; 0; 1; 2]; Some [6; 5; 0; 1; 2]].
Proof. vm_compute. reflexivity. Qed.
(** The states on the way are those of a program. *)
Example C141_case_program : exists h s, program [0; 1; 2] 2 h s /\ points s 0 1 /\ points s 1 0 /\ legal_use [0; 1; 2] (UDrop 1) s.
Proof.
  set (s0 := Owners [] [None; None] (World [] [])).
  assert (P0 : program [0; 1; 2] 2 [] s0) by exact (p_begin [0; 1; 2] 2).
  destruct (do_use 300 (UStart 0 ex_m None 0 ex_kernel (fun _ => false)) s0) as [[[a1 s1]|]|] eqn:E1; [|vm_compute in E1; discriminate..].
  assert (P1 := p_use _ _ _ _ (UStart 0 ex_m None 0 ex_kernel (fun _ => false)) _ _ _ P0
    (conj (ltac:(cbn; lia) : (0 < 2)%nat) (conj (ltac:(cbn; lia) : configs_ok None 0) (conj ex_fresh (ltac:(cbn; lia) : (2 <= 255)%nat)))) E1).
  assert (V1 : o_vars s1 = [Some 0%nat; None]) by (vm_compute in E1; injection E1 as _ <-; reflexivity).
  destruct (do_use 300 (UCopy 1 0) s1) as [[[a2 s2]|]|] eqn:E2; [|vm_compute in E1; injection E1 as _ <-; vm_compute in E2; discriminate..].
  assert (P2 := p_use _ _ _ _ (UCopy 1 0) _ _ _ P1 (ltac:(cbn; rewrite V1; cbn; lia)) E2).
  assert (V2 : o_vars s2 = [Some 0%nat; Some 0%nat]) by (vm_compute in E1; injection E1 as _ <-; vm_compute in E2; injection E2 as _ <-; reflexivity).
  destruct (do_use 300 (UStart 0 ex_m None 0 ex_kernel (fun _ => false)) s2) as [[[a3 s3]|]|] eqn:E3;
    [|vm_compute in E1; injection E1 as _ <-; vm_compute in E2; injection E2 as _ <-; vm_compute in E3; discriminate..].
  assert (P3 := p_use _ _ _ _ (UStart 0 ex_m None 0 ex_kernel (fun _ => false)) _ _ _ P2
    (conj (ltac:(rewrite V2; cbn; lia) : (0 < List.length (o_vars s2))%nat) (conj (ltac:(cbn; lia) : configs_ok None 0) (conj ex_fresh (ltac:(cbn; lia) : (2 <= 255)%nat)))) E3).
  assert (V3 : o_vars s3 = [Some 1%nat; Some 0%nat])
    by (vm_compute in E1; injection E1 as _ <-; vm_compute in E2; injection E2 as _ <-; vm_compute in E3; injection E3 as _ <-; reflexivity).
  eexists _, s3. split; [exact P3|]. unfold points, legal_use. rewrite V3. cbn. repeat split; lia.
Qed.
