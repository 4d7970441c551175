(** C177: copies of an allocator and its pool. *)
From Coq Require Import Bool List Arith Lia.
From Verif Require Import AllocCopyModel AllocCopySpec AllocCopyProofs.
Import ListNotations.

(** Full statement (false): for every type of pool that meets the documented requirements, an allocator and its copies use one pool. A type of pool may
    answer each call of getReference with another pool (one for each thread, say), and the constructor that takes copies by value calls it again. *)
Theorem C177_copies_refuted : ~ (forall g, copies_agree g).
Proof.
  intros A. assert (D : descends (fun n => n) [New 0; From 0 Copy Lvalue 0] 0 1).
  { apply Made_from. exists [New 0], Copy, Lvalue, 0, []. split; [reflexivity|]. cbn. lia. }
  destruct (A (fun n => n) _ _ _ D) as (_ & E). discriminate E.
Qed.
Print Assumptions C177_copies_refuted.

(** It holds exactly for the types of pool whose getReference always answers with the same pool. *)
Theorem C177_copies_iff_partial : forall g, copies_agree g <-> forall m n, g m = g n.
Proof. exact copies_agree_iff. Qed.
Print Assumptions C177_copies_iff_partial.

(** So it holds for the library's own pool. *)
Theorem C177_static_pool : forall object, copies_agree (static_pool object).
Proof. intros o. apply copies_agree_iff. reflexivity. Qed.
Print Assumptions C177_static_pool.

Example C177_static_pool_case :
  let h := [New 3; From 0 Copy Rvalue 5; From 1 Direct Lvalue 5; New 3] in
  descends (static_pool 7) h 0 2 /\ pool_used (static_pool 7) h 2 = Some 7.
Proof.
  cbv zeta. split; [|reflexivity]. apply (Through _ _ 0 1 2).
  - apply Made_from. exists [New 3], Copy, Rvalue, 5, [From 1 Direct Lvalue 5; New 3]. split; [reflexivity|]. cbn. lia.
  - exists [New 3; From 0 Copy Rvalue 5], Direct, Lvalue, 5, [New 3]. split; [reflexivity|]. cbn. lia.
Qed.

(** Whatever the type of pool, exactly one way of copying keeps the pool: X u(a), with the same element. *)
Theorem C177_each_way : forall f t1 t,
  (forall g before i k after m,
     nth_error (allocators (history g before)) i = Some m -> element m = t1 ->
     pool_used g (before ++ From i f k t :: after) (length (allocators (history g before))) = Some (pool m)) <->
  f = Direct /\ t1 = t.
Proof.
  intros f t1 t. split.
  - intros A. specialize (A (fun n => n) [New t1] 0 Lvalue [] (Made t1 0) eq_refl eq_refl).
    destruct (made_pools (fun n => n) [New t1] 0 f Lvalue t [] (Made t1 0) eq_refl) as (_ & Q). rewrite Q in A. cbn [taken element pool] in A.
    unfold taken in A. cbn in A. destruct f; [|discriminate A]. destruct (Nat.eqb_spec t1 t) as [E | E]; [auto | discriminate A].
  - intros (-> & ->) g before i k after m E T. destruct (made_pools g before i Direct k t after m E) as (_ & ->).
    unfold taken. now rewrite T, Nat.eqb_refl.
Qed.
Print Assumptions C177_each_way.

Example C177_each_way_case : nth_error (allocators (history (fun n => n * n) [New 1; New 1; New 4])) 2 = Some (Made 4 4).
Proof. reflexivity. Qed.

(** Every form of copying is accepted by the compiler, by value too, although the constructors are explicit: the template stands in for them. *)
Theorem C177_accepted : forall t f t1 k,
  exists c, chosen t f (Allocator t1 k) = Some c /\
  (f = Copy -> c = Converting t1) /\
  (f = Direct -> (c = CopyCtor <-> t1 = t /\ k = Lvalue) /\ (c = MoveCtor <-> t1 = t /\ k = Rvalue)).
Proof.
  intros t f t1 k. eexists. split; [apply chosen_from|]. split; [intros ->; reflexivity|]. intros ->.
  destruct (Nat.eqb_spec t1 t) as [-> | N], k; split; split; intros H; try discriminate H; try (destruct H; congruence); auto.
Qed.
Print Assumptions C177_accepted.
