(** C178: containers that use the pool allocator. *)
From Coq Require Import Bool List Arith Lia.
From Verif Require Import AllocCopyModel MoveContainerModel MoveContainerSpec MoveContainerProofs.
Import ListNotations.

(** Full statement (false): every operation of containers compiles with the allocator, and in every program, for every type of pool that meets the documented requirements, every block is
    returned to the pool it was taken from. Assigning a container by moving compares the allocators, and the class declares no comparison. *)
Theorem C178_operations_refuted : forall lib, ~ (forall o, compiles lib None o = true).
Proof. intros lib A. destruct (proj1 (compiles_iff lib None (MoveAssign 0 1)) (A _)) as [N | (_ & N)]; [now apply N | now apply (N 0 1)]. Qed.
Print Assumptions C178_operations_refuted.

(** That is the only operation that does not compile, beside those for which the library compares allocators without need, and with a comparison that the user supplies all do. *)
Theorem C178_operations_iff_partial : forall lib user o, compiles lib user o = true <-> user <> None \/ (lib o = false /\ forall i j, o <> MoveAssign i j).
Proof. exact compiles_iff. Qed.
Print Assumptions C178_operations_iff_partial.

Example C178_operations_iff_case :
  let lib := fun o => match o with CopyAssign _ _ => true | _ => false end in
  compiled lib None [Make; Insert 0; CopyConstruct 0; MoveConstruct 1; Swap 0 1; Clear 0] /\ compiles lib None (CopyAssign 0 2) = false /\ compiles lib None (MoveAssign 0 1) = false /\
  compiles lib (Some Nat.eqb) (MoveAssign 0 1) = true.
Proof. repeat split. intros o I. cbn in I. intuition (subst; reflexivity). Qed.

(** The second half is false as well, whether or not the user supplies a comparison: *)
Theorem C178_every_program_refuted : forall user, ~ (forall g lib p, compiled lib user p -> returned_right g user p).
Proof. intros user A. discriminate (proj1 (every_program_iff (fun n => n) user) (A (fun n => n)) 0 1). Qed.
Print Assumptions C178_every_program_refuted.

(** it holds exactly if getReference always answers with the same pool, as that of the library's own pool does, *)
Theorem C178_every_program_iff_partial : forall g user, (forall lib p, compiled lib user p -> returned_right g user p) <-> forall m n, g m = g n.
Proof. exact every_program_iff. Qed.
Print Assumptions C178_every_program_iff_partial.

Theorem C178_static_pool : forall object lib user p, compiled lib user p -> returned_right (static_pool object) user p.
Proof. intros object lib user. apply every_program_iff. reflexivity. Qed.
Print Assumptions C178_static_pool.

(** and otherwise for programs that swap no containers: for the class as it is always, *)
Theorem C178_no_swap : forall g p, no_swap p -> returned_right g None p.
Proof. exact as_it_is. Qed.
Print Assumptions C178_no_swap.

(** and with a comparison that the user supplies exactly if allocators that it calls equal use one pool. *)
Theorem C178_comparison_iff : forall g eq, (forall p, no_swap p -> returned_right g (Some eq) p) <-> sound g eq.
Proof. exact without_swap_iff. Qed.
Print Assumptions C178_comparison_iff.

(** A type of pool with a pool for each call: a copy takes its blocks from its own pool and returns them to it, and moving between the two makes new blocks. With a comparison that always says
    yes a block of pool 1 is returned to pool 0, and so it is after a swap. *)
Example C178_comparison_case :
  let p := [Make; Insert 0; CopyConstruct 0; Insert 1; MoveAssign 0 1; Clear 0; Clear 1] in
  no_swap p /\
  returned (run (fun n => n) (Some Nat.eqb) p) = [(1, 1); (1, 1); (0, 0); (0, 0); (0, 0)] /\
  returned (run (fun n => n) (Some (fun _ _ => true)) p) = [(1, 0); (1, 0); (0, 0)] /\
  returned (run (fun n => n) None [Make; Make; Insert 1; Swap 0 1; Clear 0]) = [(1, 0)].
Proof. cbv zeta. split; [|repeat split]. intros i j I. cbn in I. intuition discriminate. Qed.

(** The elements arrive in any case: after copying, moving or swapping a container has as many as the other had. *)
Theorem C178_elements :
  forall g user p i j,
    let w := run g user p in
    size w i <> None -> size w j <> None ->
    let after o := run g user (p ++ [o]) in
    size (after (CopyAssign i j)) i = size w j /\
    (forall lib, compiles lib user (MoveAssign i j) = true -> size (after (MoveAssign i j)) i = size w j) /\
    size (after (Swap i j)) i = size w j /\ size (after (Swap i j)) j = size w i /\
    size (after (CopyConstruct j)) (number w) = size w j /\
    size (after (MoveConstruct j)) (number w) = size w j.
Proof.
  cbv beta zeta. intros g user p i j Ni Nj. rewrite !run_snoc. set (w := run g user p) in *. clearbody w.
  destruct (box w i) as [c|] eqn:Ei; [|unfold size in Ni; rewrite Ei in Ni; contradiction].
  destruct (box w j) as [d|] eqn:Ej; [|unfold size in Nj; rewrite Ej in Nj; contradiction].
  destruct (sizes g user w i j c d Ei Ej) as (S1 & S2 & S3). split; [exact S1 | split; [|exact S3]].
  intros lib C. apply S2. intros ->. destruct (proj1 (compiles_iff lib None (MoveAssign i j)) C) as [N | (_ & N)]; [now apply N | now apply (N i j)].
Qed.
Print Assumptions C178_elements.

Example C178_elements_case :
  let w := run (fun n => n) None [Make; Insert 0; Insert 0; CopyConstruct 0; Insert 1] in size w 0 = Some 2 /\ size w 1 = Some 3.
Proof. split; reflexivity. Qed.

(** No block is lost and none is returned twice, whatever the pools and the comparison: those taken from a pool are those in the containers and those returned. *)
Theorem C178_accounted : forall g user p, accounted (run g user p).
Proof. intros g user p. exact (proj2 (run_accounted g user p)). Qed.
Print Assumptions C178_accounted.

Example C178_accounted_case :
  let w := run (fun n => n) (Some Nat.eqb) [Make; Insert 0; Insert 0; CopyConstruct 0; MoveConstruct 0; CopyAssign 1 2; Clear 2] in
  taken w = [1; 1; 1; 1; 0; 0] /\ in_containers w 1 = 2 /\ in_containers w 0 = 0 /\ returned w = [(0, 0); (0, 0); (1, 1); (1, 1)].
Proof. repeat split. Qed.

(** So when a program has destroyed all its containers every block that it took was returned, as often as it was taken. *)
Theorem C178_all_returned :
  forall g user p pool,
    let w := run g user (p ++ map Clear (seq 0 (number (run g user p)))) in
    count_occ Nat.eq_dec (taken w) pool = count_occ Nat.eq_dec (map fst (returned w)) pool.
Proof. exact all_returned. Qed.
Print Assumptions C178_all_returned.

Example C178_all_returned_case :
  let p := [Make; Insert 0; Insert 0; CopyConstruct 0; Insert 1; Swap 0 1] in
  number (run (fun n => n) None p) = 2 /\ returned (run (fun n => n) None (p ++ [Clear 0; Clear 1])) = [(0, 1); (0, 1); (1, 0); (1, 0); (1, 0)].
Proof. split; reflexivity. Qed.
