(** C176: units with and without exceptions in one program. *)
From Coq Require Import Bool List Arith Lia.
From Verif Require Import SwitchModel SwitchSpec SwitchProofs.
Import ListNotations.

(** Full statement (false): each unit's allocations that cannot be served end as the unit was compiled for, with bad_alloc or with null. The function is
    the same for the linker, which keeps one copy. *)
Theorem C176_mixed_refuted :
  ~ (forall p t, forallb compiles p = true -> faithful p t -> respected p t).
Proof.
  intros A. set (u := Piece true true None [Allocator 4 64 0]). set (w := Piece false true None [Allocator 4 64 0]).
  assert (C : calls_from [u; w] 1 (Allocator 4 64 0)) by (exists w; split; [reflexivity | now left]).
  pose proof (A [u; w] _ eq_refl (worst_faithful [u; w] 1 _ C)) as R.
  destruct (R 0 u (Allocator 4 64 0) 1 0 eq_refl (or_introl eq_refl)) as (_ & R2). destruct R2 as (R2 & _); [intros (_ & L); lia|].
  discriminate (R2 eq_refl).
Qed.
Print Assumptions C176_mixed_refuted.

(** It does not help that the units have no allocator in common: allocators of other elements share the pool. *)
Theorem C176_other_elements_refuted :
  ~ (forall p t, forallb compiles p = true ->
       (forall n m a, calls_from p n a -> calls_from p m a -> n = m) -> faithful p t -> respected p t).
Proof.
  intros A. set (u := Piece true true None [Allocator 4 64 0]). set (w := Piece false true None [Allocator 4 64 1]).
  assert (C : calls_from [u; w] 1 (Allocator 4 64 1)) by (exists w; split; [reflexivity | now left]).
  assert (D : forall n m a, calls_from [u; w] n a -> calls_from [u; w] m a -> n = m).
  { intros [|[|n]] [|[|m]] a (x & E & I) (y & F & J); try reflexivity; cbn in E, F; try (destruct n; discriminate E); try (destruct m; discriminate F);
      injection E as <-; injection F as <-; destruct I as [<- | []]; destruct J as [J | []]; discriminate J. }
  pose proof (A [u; w] _ eq_refl D (worst_faithful [u; w] 1 _ C)) as R.
  destruct (R 0 u (Allocator 4 64 0) 1 0 eq_refl (or_introl eq_refl)) as (_ & R2). destruct R2 as (R2 & _); [intros (_ & L); lia|].
  discriminate (R2 eq_refl).
Qed.
Print Assumptions C176_other_elements_refuted.

(** Exactly the programs whose units agree for each pool are safe from this, with every compiler and linker. *)
Theorem C176_mixed_iff_partial : forall p,
  (forall t, faithful p t -> respected p t) <->
  (forall n u a m w b, nth_error p n = Some u -> In a (calls u) -> nth_error p m = Some w -> In b (calls w) ->
     num_blocks a = num_blocks b -> block_size a = block_size b -> enabled u = enabled w).
Proof. exact respected_iff. Qed.
Print Assumptions C176_mixed_iff_partial.

Example C176_mixed_iff_partial_case :
  let p := [Piece true true None [Allocator 4 64 0]; Piece false false None [Allocator 4 32 0]; Piece true false (Some true) [Allocator 4 64 1]] in
  forallb compiles p = true /\ (forall t, faithful p t -> respected p t) /\ exists t, faithful p t.
Proof.
  cbv zeta. split; [reflexivity|]. split.
  - apply respected_iff. intros [|[|[|n]]] u a [|[|[|m]]] w b E I F J; cbn in E, F; try (destruct n; discriminate E); try (destruct m; discriminate F);
      injection E as <-; injection F as <-; destruct I as [<- | []]; destruct J as [<- | []]; cbn; intros; congruence.
  - eexists. apply (worst_faithful _ 1 (Allocator 4 32 0)). eexists. split; [reflexivity | now left].
Qed.

(** An allocation that can be served is served in every mixture. *)
Theorem C176_served : forall p t n u a size free,
  faithful p t -> nth_error p n = Some u -> In a (calls u) -> served a size free -> allocate t p n a size free = Block.
Proof.
  intros p t n u a size free F E I V. destruct (executed_same_pool p t n a F) as (b & (w & Ew & _) & _); [exists u; auto|].
  unfold allocate. rewrite Ew. pose proof (proj2 (pool_allocate_as (enabled w) u a size free) (or_introl V)) as (H & _). exact (H V).
Qed.
Print Assumptions C176_served.

(** The switch: what the user says, else what the compiler says; a unit in which it is on without exceptions does not compile. *)
Theorem C176_switch : forall u,
  (forall b, chosen u = Some b -> enabled u = b) /\
  (chosen u = None -> (enabled u = true <-> on u = true /\ announced u = true) /\ compiles u = true) /\
  (compiles u = false <-> chosen u = Some true /\ on u = false).
Proof.
  intros [o a g c]. unfold enabled, compiles. cbn. split; [|split].
  - intros b ->. reflexivity.
  - intros ->. destruct o, a; cbn; intuition congruence.
  - destruct g as [[]|], o, a; cbn; intuition congruence.
Qed.
Print Assumptions C176_switch.

Example C176_served_case :
  let p := [Piece true true None [Allocator 4 64 0]; Piece false true None [Allocator 4 64 1]] in
  faithful p (worst p 1 (Allocator 4 64 1)) /\ allocate (worst p 1 (Allocator 4 64 1)) p 0 (Allocator 4 64 0) 64 1 = Block /\
  allocate (worst p 1 (Allocator 4 64 1)) p 0 (Allocator 4 64 0) 64 0 = Null.
Proof.
  cbv zeta. split; [|split; reflexivity]. apply worst_faithful. eexists. split; [reflexivity | now left].
Qed.
