(** Proofs about units with and without exceptions. *)
From Coq Require Import Bool List Arith Lia.
From Verif Require Import SwitchModel SwitchSpec.
Import ListNotations.

Lemma pool_allocate_as e u a size free :
  as_compiled u a size free (pool_allocate e (block_size a) size free) <-> (served a size free \/ e = enabled u).
Proof.
  unfold as_compiled, served, pool_allocate. destruct (size <=? block_size a) eqn:L; [apply Nat.leb_le in L | apply Nat.leb_gt in L].
  - destruct free as [|f].
    + split.
      * intros (_ & H). right. destruct (H ltac:(lia)) as (A & B). destruct (enabled u), e; try reflexivity; [discriminate (A eq_refl) | discriminate (B eq_refl)].
      * intros [H | ->]; [lia|]. split; [lia|]. intros _. split; intros ->; reflexivity.
    + split; [intros _; left; lia|]. intros _. split; [reflexivity | lia].
  - split.
    + intros (_ & H). right. destruct (H ltac:(lia)) as (A & B). destruct (enabled u), e; try reflexivity; [discriminate (A eq_refl) | discriminate (B eq_refl)].
    + intros [H | ->]; [lia|]. split; [lia|]. intros _. split; intros ->; reflexivity.
Qed.

(** The text that is executed is of a unit with the same pool. *)
Lemma executed_same_pool p t n a :
  faithful p t -> calls_from p n a ->
  exists b, calls_from p (executed t n a) b /\ num_blocks b = num_blocks a /\ block_size b = block_size a.
Proof.
  intros F C. unfold executed. destruct (F n a C) as (O & J).
  destruct (inserts_outer t n a).
  - destruct (inserts_inner t n a); [exists a; auto | exact J].
  - destruct (inserts_inner t (keeps_outer t a) a); [exists a; auto | exact J].
Qed.

(** Whether a unit in a list calls an allocator with this pool or this one itself, and its number. *)
Definition same_pool (a b : allocator) : bool := (num_blocks b =? num_blocks a) && (block_size b =? block_size a).

Lemma same_pool_iff a b : same_pool a b = true <-> num_blocks b = num_blocks a /\ block_size b = block_size a.
Proof. unfold same_pool. rewrite andb_true_iff, !Nat.eqb_eq. tauto. Qed.

Fixpoint first_unit (test : allocator -> bool) (p : list piece) : nat :=
  match p with
  | [] => 0
  | u :: rest => if existsb test (calls u) then 0 else S (first_unit test rest)
  end.

Lemma first_unit_spec test p n a : calls_from p n a -> test a = true -> exists b, calls_from p (first_unit test p) b /\ test b = true.
Proof.
  revert n. induction p as [|u p IH]; intros n (x & E & I) T; [destruct n; discriminate E|]. cbn [first_unit].
  destruct (existsb test (calls u)) eqn:X.
  - apply existsb_exists in X. destruct X as (b & J & Tb). exists b. split; [exists u; auto | exact Tb].
  - destruct n as [|n].
    + injection E as ->. exfalso. rewrite <- not_true_iff_false in X. apply X. apply existsb_exists. exists a. auto.
    + destruct (IH n) as (b & (y & E' & J) & Tb); [exists x; auto | exact T|]. exists b. split; [exists y; auto | exact Tb].
Qed.

Definition allocator_eqb (a b : allocator) : bool := same_pool a b && (element b =? element a).

Lemma allocator_eqb_iff a b : allocator_eqb a b = true <-> b = a.
Proof.
  unfold allocator_eqb. rewrite andb_true_iff, same_pool_iff, Nat.eqb_eq. destruct a, b. cbn. split; [intros ((-> & ->) & ->); reflexivity | intros E; injection E; auto].
Qed.

(** Without insertion, with the copy of unit [w] for the pool of [b]. *)
Definition worst (p : list piece) (w : nat) (b : allocator) : toolchain :=
  Toolchain (fun _ _ => false) (fun _ _ => false)
    (fun a => first_unit (allocator_eqb a) p)
    (fun x => if (fst x =? num_blocks b) && (snd x =? block_size b) then w
              else first_unit (same_pool (Allocator (fst x) (snd x) 0)) p).

Lemma worst_faithful p w b : calls_from p w b -> faithful p (worst p w b).
Proof.
  intros C n a A. cbn [worst keeps_outer keeps_inner pool_of fst snd]. split.
  - destruct (first_unit_spec (allocator_eqb a) p n a A) as (x & X & E); [now apply allocator_eqb_iff|]. apply allocator_eqb_iff in E. subst x. exact X.
  - destruct ((num_blocks a =? num_blocks b) && (block_size a =? block_size b)) eqn:E.
    + apply andb_true_iff in E. rewrite !Nat.eqb_eq in E. exists b. destruct E as (-> & ->). auto.
    + destruct (first_unit_spec (same_pool (Allocator (num_blocks a) (block_size a) 0)) p n a A) as (x & X & S1); [now apply same_pool_iff|].
      apply same_pool_iff in S1. exists x. split; [exact X | exact S1].
Qed.

Lemma respected_iff p :
  (forall t, faithful p t -> respected p t) <->
  (forall n u a m w b, nth_error p n = Some u -> In a (calls u) -> nth_error p m = Some w -> In b (calls w) ->
     num_blocks a = num_blocks b -> block_size a = block_size b -> enabled u = enabled w).
Proof.
  split.
  - intros R n u a m w b Eu Iu Ew Iw N B.
    assert (C : calls_from p m b) by (exists w; auto).
    pose proof (R _ (worst_faithful p m b C) n u a 0 0 Eu Iu) as H.
    unfold allocate, executed in H. cbn [worst inserts_outer inserts_inner keeps_inner pool_of fst snd] in H.
    rewrite N, B, !Nat.eqb_refl in H. cbn [andb] in H. rewrite Ew, <- B in H. apply pool_allocate_as in H. destruct H as [(_ & H) | H]; [lia | now symmetry].
  - intros A t F n u a size free E I. destruct (executed_same_pool p t n a F) as (b & (w & Ew & Iw) & N & B); [exists u; auto|].
    unfold allocate. rewrite Ew. apply pool_allocate_as. right. symmetry. apply (A n u a _ w b E I Ew Iw); auto.
Qed.
