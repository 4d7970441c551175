(** Proofs about copies of allocators. *)
From Coq Require Import Bool List Arith Lia.
From Verif Require Import AllocCopyModel AllocCopySpec.
Import ListNotations.

Lemma chosen_new t : chosen t Direct Nothing = Some Default.
Proof. reflexivity. Qed.

Lemma chosen_from t f t1 k :
  chosen t f (Allocator t1 k) =
  Some (match f with
        | Copy => Converting t1
        | Direct => if t1 =? t then match k with Lvalue => CopyCtor | Rvalue => MoveCtor end else Converting t1
        end).
Proof. unfold chosen, viable. destruct (t1 =? t), f, k; reflexivity. Qed.

Lemma history_snoc g h a : history g (h ++ [a]) = act g (history g h) a.
Proof. unfold history. rewrite fold_left_app. reflexivity. Qed.

(** The pool of an allocator that is made from another. *)
Definition taken (g : pool_type) (s : state) (m : made) (f : form) (t : nat) : nat :=
  match f with Direct => if element m =? t then pool m else g (called s) | Copy => g (called s) end.

Lemma act_from g s i f k t m :
  nth_error (allocators s) i = Some m -> allocators (act g s (From i f k t)) = allocators s ++ [Made t (taken g s m f t)].
Proof.
  intros E. cbn [act]. rewrite E, chosen_from. unfold taken. destruct f; [destruct (element m =? t); [destruct k|]|]; reflexivity.
Qed.

Lemma act_grows g s a : exists l, allocators (act g s a) = allocators s ++ l.
Proof.
  destruct a as [t | i f k t].
  - cbn. eexists. reflexivity.
  - destruct (nth_error (allocators s) i) as [m|] eqn:E.
    + rewrite (act_from g s i f k t m E). eexists. reflexivity.
    + cbn. rewrite E. exists []. now rewrite app_nil_r.
Qed.

Lemma history_grows g h h' : exists l, allocators (history g (h ++ h')) = allocators (history g h) ++ l.
Proof.
  induction h' as [|a h' (l & IH)] using rev_ind; [exists []; now rewrite !app_nil_r|].
  rewrite app_assoc, history_snoc. destruct (act_grows g (history g (h ++ h')) a) as (l' & ->). rewrite IH, <- app_assoc. eexists. reflexivity.
Qed.

Lemma pool_used_keeps g h h' i : i < length (allocators (history g h)) -> pool_used g (h ++ h') i = pool_used g h i.
Proof. intros L. unfold pool_used. destruct (history_grows g h h') as (l & ->). now rewrite nth_error_app1. Qed.

(** The pools of the two when one is made from the other. *)
Lemma made_pools g before i f k t after m :
  nth_error (allocators (history g before)) i = Some m ->
  pool_used g (before ++ From i f k t :: after) i = Some (pool m) /\
  pool_used g (before ++ From i f k t :: after) (length (allocators (history g before))) = Some (taken g (history g before) m f t).
Proof.
  intros E. assert (L : i < length (allocators (history g before))) by (apply nth_error_Some; congruence). split.
  - rewrite pool_used_keeps by exact L. unfold pool_used. now rewrite E.
  - replace (before ++ From i f k t :: after) with ((before ++ [From i f k t]) ++ after) by (now rewrite <- app_assoc).
    assert (A : allocators (history g (before ++ [From i f k t])) = allocators (history g before) ++ [Made t (taken g (history g before) m f t)])
      by (rewrite history_snoc; now apply act_from).
    rewrite pool_used_keeps by (rewrite A, app_length; cbn; lia). unfold pool_used. rewrite A, nth_error_app2, Nat.sub_diag by lia. reflexivity.
Qed.

(** With a constant getReference all pools are the same. *)
Lemma constant_pools g h : (forall m n, g m = g n) -> forall i p, pool_used g h i = Some p -> p = g 0.
Proof.
  intros C. induction h as [|a h IH] using rev_ind; intros i p; [destruct i; discriminate|].
  destruct (Nat.lt_ge_cases i (length (allocators (history g h)))) as [L | L]; [rewrite pool_used_keeps by exact L; apply IH|].
  unfold pool_used. rewrite history_snoc. destruct a as [t | j f k t].
  - cbn. rewrite nth_error_app2 by exact L. destruct (i - _) as [|[|q]]; cbn; try discriminate. intros E. injection E as <-. apply C.
  - destruct (nth_error (allocators (history g h)) j) as [m|] eqn:E.
    + rewrite (act_from g _ j f k t m E), nth_error_app2 by exact L. destruct (i - _) as [|[|q]]; cbn; try discriminate. intros Q. injection Q as <-.
      unfold taken. destruct f; [destruct (element m =? t)|]; try apply C. apply (IH j). unfold pool_used. now rewrite E.
    + cbn. rewrite E. intros Q. apply (IH i). unfold pool_used. exact Q.
Qed.

Lemma descends_used g h i j : descends g h i j -> pool_used g h i <> None /\ pool_used g h j <> None.
Proof.
  assert (M : forall i j, made_from g h i j -> pool_used g h i <> None /\ pool_used g h j <> None).
  { intros x y (b & f & k & t & a & -> & L & ->). apply nth_error_Some in L. destruct (nth_error (allocators (history g b)) x) as [m|] eqn:E; [|contradiction].
    destruct (made_pools g b x f k t a m E) as (P & Q). rewrite P, Q. split; discriminate. }
  intros D. induction D as [i j H | i j l D IH H]; [exact (M i j H)|]. split; [apply IH | apply (M j l H)].
Qed.

(** n copies by value, one of the other. *)
Fixpoint chain (n : nat) : list action := match n with O => [New 0] | S m => chain m ++ [From m Copy Lvalue 0] end.

Lemma chain_state g n : length (allocators (history g (chain n))) = S n /\ called (history g (chain n)) = S n /\ nth_error (allocators (history g (chain n))) n = Some (Made 0 (g n)).
Proof.
  induction n as [|n (L & C & N)]; [cbn; auto|]. cbn [chain]. rewrite history_snoc.
  pose proof (act_from g (history g (chain n)) n Copy Lvalue 0 _ N) as A.
  assert (C' : called (act g (history g (chain n)) (From n Copy Lvalue 0)) = S (S n)) by (cbn [act]; rewrite N, chosen_from; cbn; now rewrite C).
  rewrite A, app_length, L, C'. cbn [length]. split; [lia|]. split; [reflexivity|].
  rewrite nth_error_app2 by lia. rewrite L, Nat.sub_diag. cbn. now rewrite C.
Qed.

Lemma copies_agree_iff g : copies_agree g <-> forall m n, g m = g n.
Proof.
  split.
  - intros A. assert (H : forall n, g (S n) = g n).
    { intros n. destruct (chain_state g n) as (L & C & N).
      assert (D : descends g (chain (S n)) n (S n)).
      { apply Made_from. exists (chain n), Copy, Lvalue, 0, []. split; [reflexivity|]. rewrite L. split; lia. }
      destruct (A _ _ _ D) as (_ & E). destruct (made_pools g (chain n) n Copy Lvalue 0 [] _ N) as (P & Q). rewrite L in Q.
      cbn [chain] in E. rewrite P, Q in E. injection E as E. cbn in E. rewrite C in E. now symmetry. }
    assert (Z0 : forall n, g n = g 0) by (induction n as [|n IH]; [reflexivity | now rewrite H]).
    intros m n. now rewrite (Z0 m), (Z0 n).
  - intros C h i j D. destruct (descends_used g h i j D) as (P & Q). split; [exact P|].
    destruct (pool_used g h i) as [p|] eqn:E; [|contradiction]. destruct (pool_used g h j) as [q|] eqn:F; [|contradiction].
    now rewrite (constant_pools g h C i p E), (constant_pools g h C j q F).
Qed.
