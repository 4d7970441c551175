From Coq Require Import ZArith Bool List Arith Lia Permutation.
From Verif Require Import Outcome CanFrameModel CanFrameProofs PoolModel PoolSpec PoolProofs PoolConcModel PoolConcSpec.
Import ListNotations.
Open Scope Z_scope.

Lemma upd_same : forall f t c, upd f t c t = c.
Proof. intros. unfold upd. now rewrite Nat.eqb_refl. Qed.
Lemma upd_other : forall f t c t', t' <> t -> upd f t c t' = f t'.
Proof. intros f t c t' H. unfold upd. destruct (Nat.eqb_spec t' t); [congruence|reflexivity]. Qed.
Lemma upd_cases : forall f t c t', (t' = t /\ upd f t c t' = c) \/ (t' <> t /\ upd f t c t' = f t').
Proof. intros. destruct (Nat.eq_dec t' t); [left; subst; split; auto using upd_same|right; auto using upd_other]. Qed.

(** ** The logical free list: pending links count as made. *)

Definition lk (s : cstate) (b : nat) (q : ptr) : Prop :=
  (exists t, pcs s t = DLink b q) \/
  (nth_error (cmem s) b = Some (CNext q) /\ forall t q', pcs s t <> DLink b q').

Fixpoint chainR (R : nat -> ptr -> Prop) (h : ptr) (l : list nat) : Prop :=
  match l with
  | [] => h = Null
  | b :: t => h = At b /\ exists q, R b q /\ chainR R q t
  end.

Lemma chainR_impl : forall (R R' : nat -> ptr -> Prop) l h,
  (forall b q, In b l -> R b q -> R' b q) -> chainR R h l -> chainR R' h l.
Proof.
  intros R R' l. induction l as [|b t IH]; intros h H C; [exact C|].
  destruct C as [-> [q [E C]]]. split; [reflexivity|]. exists q. split; [apply H; simpl; auto|].
  apply IH; [|exact C]. intros. apply H; simpl; auto.
Qed.

Record CInv (n : nat) (fr : list nat) (s : cstate) : Prop := {
  ci_len : length (cmem s) = n;
  ci_chain : chainR (lk s) (chead s) fr;
  ci_nodup : NoDup (fr ++ held s);
  ci_lt : forall b, In b (fr ++ held s) -> (b < n)%nat;
  ci_xchg : forall t b, pcs s t = DXchg b -> (b < n)%nat /\ ~ In b (fr ++ held s);
  ci_xchg2 : forall t t' b, pcs s t = DXchg b -> pcs s t' = DXchg b -> t = t';
  ci_link : forall t b q, pcs s t = DLink b q -> In b fr;
  ci_link2 : forall t t' b q q', pcs s t = DLink b q -> pcs s t' = DLink b q' -> t = t';
  ci_all : forall b, (b < n)%nat -> In b (fr ++ held s) \/ exists t, pcs s t = DXchg b;
  ci_phase : forall t t', allocating (pcs s t) -> ~ deallocating (pcs s t');
  ci_read : forall t p, pcs s t = ARead p -> exists b, p = At b /\ (b < n)%nat;
  ci_cas : forall t p q, pcs s t = ACas p q ->
    exists b, p = At b /\ (b < n)%nat /\ (In b fr -> nth_error (cmem s) b = Some (CNext q))
}.

Lemma cinit_inv : forall n, (0 < n)%nat -> CInv n (seq 0 n) (cinit n).
Proof.
  intros n Hn. destruct (pool_init_chain n Hn) as [Hl Hc].
  constructor; cbn [cinit cmem chead pcs holders held map]; try discriminate; auto.
  - revert Hc. generalize (head (pool_init n)). induction (seq 0 n) as [|b t IH]; intros h Hc; [exact Hc|].
    destruct Hc as [-> [q [E C]]]. split; [reflexivity|]. exists q. split; [|auto].
    right. split; [exact E|discriminate].
  - rewrite app_nil_r. apply seq_NoDup.
  - intros b. rewrite app_nil_r, in_seq. lia.
  - intros b Hb. left. rewrite app_nil_r, in_seq. lia.
Qed.

(** Steps that only move the program counter of [t], with neither side in the middle of a link or exchange. *)
Lemma inv_set_pc : forall n fr s t c,
  CInv n fr s -> (forall b q, pcs s t <> DLink b q) -> (forall b, pcs s t <> DXchg b) -> ~ deallocating c ->
  (allocating c -> allocating (pcs s t) \/ forall t', ~ deallocating (pcs s t')) ->
  (forall p, c = ARead p -> exists b, p = At b /\ (b < n)%nat) ->
  (forall p q, c = ACas p q -> exists b, p = At b /\ (b < n)%nat /\ (In b fr -> nth_error (cmem s) b = Some (CNext q))) ->
  CInv n fr (set_pc s t c).
Proof.
  intros n fr s t c I Hl Hx Hd Ha Hr Hc.
  assert (Hlk : forall b q, lk s b q -> lk (set_pc s t c) b q).
  { intros b q [[t' E]|[E H]].
    - left. exists t'. cbn [set_pc pcs]. rewrite upd_other; [exact E|]. intros ->. now apply (Hl b q).
    - right. split; [exact E|]. intros t' q' C. cbn [set_pc pcs] in C.
      destruct (upd_cases (pcs s) t c t') as [[-> U]|[N U]]; rewrite U in C.
      + subst c. apply Hd. exact Logic.I.
      + now apply (H t' q'). }
  constructor; unfold held in *; cbn [set_pc cmem chead pcs holders].
  - apply (ci_len _ _ _ I).
  - eapply chainR_impl; [|apply (ci_chain _ _ _ I)]. intros b q _. apply Hlk.
  - apply (ci_nodup _ _ _ I).
  - apply (ci_lt _ _ _ I).
  - intros t' b E. destruct (upd_cases (pcs s) t c t') as [[-> U]|[N U]]; rewrite U in E.
    + subst c. exfalso. apply Hd. exact Logic.I.
    + now apply (ci_xchg _ _ _ I t').
  - intros t1 t2 b E1 E2.
    destruct (upd_cases (pcs s) t c t1) as [[-> U]|[N U]]; rewrite U in E1; [subst c; exfalso; now apply Hd|].
    destruct (upd_cases (pcs s) t c t2) as [[-> U2]|[N2 U2]]; rewrite U2 in E2; [subst c; exfalso; now apply Hd|].
    now apply (ci_xchg2 _ _ _ I t1 t2 b).
  - intros t' b q E. destruct (upd_cases (pcs s) t c t') as [[-> U]|[N U]]; rewrite U in E.
    + subst c. exfalso. now apply Hd.
    + now apply (ci_link _ _ _ I t' b q).
  - intros t1 t2 b q q' E1 E2.
    destruct (upd_cases (pcs s) t c t1) as [[-> U]|[N U]]; rewrite U in E1; [subst c; exfalso; now apply Hd|].
    destruct (upd_cases (pcs s) t c t2) as [[-> U2]|[N2 U2]]; rewrite U2 in E2; [subst c; exfalso; now apply Hd|].
    now apply (ci_link2 _ _ _ I t1 t2 b q q').
  - intros b Hb. destruct (ci_all _ _ _ I b Hb) as [H|[t' H]]; [now left|right]. exists t'.
    rewrite upd_other; [exact H|]. intros ->. now apply (Hx b).
  - intros t1 t2 A D.
    destruct (upd_cases (pcs s) t c t2) as [[-> U2]|[N2 U2]]; rewrite U2 in D; [now apply Hd|].
    destruct (upd_cases (pcs s) t c t1) as [[-> U]|[N U]]; rewrite U in A.
    + destruct (Ha A) as [A'|A']; [now apply (ci_phase _ _ _ I t t2)|now apply (A' t2)].
    + now apply (ci_phase _ _ _ I t1 t2).
  - intros t' p E. destruct (upd_cases (pcs s) t c t') as [[-> U]|[N U]]; rewrite U in E; [now apply Hr|].
    now apply (ci_read _ _ _ I t').
  - intros t' p q E. destruct (upd_cases (pcs s) t c t') as [[-> U]|[N U]]; rewrite U in E; [now apply Hc|].
    now apply (ci_cas _ _ _ I t').
Qed.

Lemma ptr_eqb_true : forall p q, ptr_eqb p q = true -> p = q.
Proof.
  intros [|a|a] [|b|b]; simpl; try discriminate; auto; intros H.
  - apply Nat.eqb_eq in H. now subst.
  - apply Z.eqb_eq in H. now subst.
Qed.

Lemma chainR_head : forall R b l, chainR R (At b) l -> exists t q, l = b :: t /\ R b q /\ chainR R q t.
Proof. intros R b [|a t] C; simpl in C; [discriminate|]. destruct C as [E [q [H1 H2]]]. injection E as <-. eauto. Qed.

(** A thread in allocate: no links are pending, so the logical list is the list in memory. *)
Lemma lk_alloc : forall n fr s t b q, CInv n fr s -> allocating (pcs s t) -> lk s b q -> nth_error (cmem s) b = Some (CNext q).
Proof.
  intros n fr s t b q I A [[t' E]|[E _]]; [|exact E].
  exfalso. apply (ci_phase _ _ _ I t t' A). now rewrite E.
Qed.

Lemma inv_cas : forall n fr s t b q,
  CInv n fr s -> pcs s t = ACas (At b) q -> chead s = At b ->
  exists fr', fr = b :: fr' /\
    CInv n fr' (CState (cmem s) q (upd (pcs s) t Idle) ((t, b) :: holders s) (S (pops s))).
Proof.
  intros n fr s t b q I Hpc Hh.
  assert (A : allocating (pcs s t)) by (rewrite Hpc; exact Logic.I).
  pose proof (ci_chain _ _ _ I) as C. rewrite Hh in C.
  destruct (chainR_head _ _ _ C) as [fr' [q' [-> [Hl Ht]]]].
  exists fr'. split; [reflexivity|].
  destruct (ci_cas _ _ _ I t (At b) q Hpc) as [b' [Eb [Hb Hq]]]. injection Eb as <-.
  pose proof (lk_alloc n _ s t b q' I A Hl) as Hn. rewrite Hq in Hn by (now left). injection Hn as <-.
  assert (ND : forall t', ~ deallocating (pcs s t')) by (intros; now apply (ci_phase _ _ _ I t t')).
  assert (Hp : forall x, In x (fr' ++ b :: held s) <-> In x ((b :: fr') ++ held s)).
  { intros x. simpl. rewrite !in_app_iff. simpl. tauto. }
  constructor; unfold held in *; cbn [cmem chead pcs holders map snd].
  - apply (ci_len _ _ _ I).
  - eapply chainR_impl; [|exact Ht]. intros x y _ L. right. split; [apply (lk_alloc n _ s t x y I A L)|].
    intros t' z E. cbn [pcs] in E. destruct (upd_cases (pcs s) t Idle t') as [[-> U]|[N U]]; rewrite U in E; [discriminate|].
    apply (ND t'). now rewrite E.
  - eapply Permutation_NoDup; [|apply (ci_nodup _ _ _ I)]. simpl. apply Permutation_middle.
  - intros x Hx. apply (ci_lt _ _ _ I). now apply Hp.
  - intros t' x E. exfalso. destruct (upd_cases (pcs s) t Idle t') as [[-> U]|[N U]]; rewrite U in E; [discriminate|].
    apply (ND t'). now rewrite E.
  - intros t1 t2 x E _. exfalso. destruct (upd_cases (pcs s) t Idle t1) as [[-> U]|[N U]]; rewrite U in E; [discriminate|].
    apply (ND t1). now rewrite E.
  - intros t' x y E. exfalso. destruct (upd_cases (pcs s) t Idle t') as [[-> U]|[N U]]; rewrite U in E; [discriminate|].
    apply (ND t'). now rewrite E.
  - intros t1 t2 x y z E _. exfalso. destruct (upd_cases (pcs s) t Idle t1) as [[-> U]|[N U]]; rewrite U in E; [discriminate|].
    apply (ND t1). now rewrite E.
  - intros x Hx. left. apply Hp. destruct (ci_all _ _ _ I x Hx) as [H|[t' H]]; [exact H|].
    exfalso. apply (ND t'). now rewrite H.
  - intros t1 t2 A1 D2. destruct (upd_cases (pcs s) t Idle t2) as [[-> U]|[N U]]; rewrite U in D2; [exact D2|].
    now apply (ND t2).
  - intros t' p E. destruct (upd_cases (pcs s) t Idle t') as [[-> U]|[N U]]; rewrite U in E; [discriminate|].
    now apply (ci_read _ _ _ I t').
  - intros t' p z E. destruct (upd_cases (pcs s) t Idle t') as [[-> U]|[N U]]; rewrite U in E; [discriminate|].
    destruct (ci_cas _ _ _ I t' p z E) as [x [-> [Hx Hz]]]. exists x. repeat split; auto. intros Hin. apply Hz. now right.
Qed.

Lemma holds_in : forall s t b, holds s t b = true -> In (t, b) (holders s).
Proof.
  intros s t b H. unfold holds in H. apply existsb_exists in H. destruct H as [[x y] [H E]].
  simpl in E. apply andb_true_iff in E. destruct E as [E1 E2]. apply Nat.eqb_eq in E1, E2. now subst.
Qed.

Lemma drop_nodup : forall t b l, NoDup (map (@snd nat nat) l) -> In (t, b) l ->
  Permutation (map snd l) (b :: map snd (drop t b l)).
Proof.
  intros t b l. induction l as [|[x y] l IH]; intros N H; [destruct H|].
  simpl in N. apply NoDup_cons_iff in N. destruct N as [N1 N2].
  destruct H as [E|H].
  - injection E as -> ->. simpl. rewrite !Nat.eqb_refl. simpl. apply perm_skip.
    assert (Hid : drop t b l = l); [|now rewrite Hid].
    clear IH N2. induction l as [|[u v] l IH]; [reflexivity|]. simpl in N1. simpl.
    destruct (Nat.eqb_spec v b); [subst; tauto|]. rewrite andb_false_r. simpl. f_equal. apply IH. tauto.
  - simpl. assert (y <> b).
    { intros ->. apply N1. apply in_map_iff. exists (t, b). auto. }
    destruct (Nat.eqb_spec y b); [congruence|]. rewrite andb_false_r. simpl.
    rewrite perm_swap. apply perm_skip. auto.
Qed.

Lemma inv_free : forall n fr s t b,
  CInv n fr s -> pcs s t = Idle -> holds s t b = true -> (forall t', ~ allocating (pcs s t')) ->
  CInv n fr (CState (cmem s) (chead s) (upd (pcs s) t (DXchg b)) (drop t b (holders s)) (pops s)).
Proof.
  intros n fr s t b I Hpc Hh NA. apply holds_in in Hh.
  pose proof (ci_nodup _ _ _ I) as Hnd. apply nodup_app_iff in Hnd. destruct Hnd as [N1 [N2 N3]].
  pose proof (drop_nodup t b _ N2 Hh) as P.
  assert (Hb : In b (held s)) by (apply in_map_iff; exists (t, b); auto).
  assert (N2' : NoDup (b :: map snd (drop t b (holders s)))) by (eapply Permutation_NoDup; eauto).
  apply NoDup_cons_iff in N2'. destruct N2' as [Nb N2'].
  assert (Hin : forall x, In x (map snd (drop t b (holders s))) -> In x (held s)).
  { intros x Hx. apply (Permutation_in _ (Permutation_sym P)). now right. }
  assert (Hin2 : forall x, In x (held s) -> x = b \/ In x (map snd (drop t b (holders s)))).
  { intros x Hx. apply (Permutation_in _ P) in Hx. destruct Hx; auto. }
  constructor; unfold held in *; cbn [cmem chead pcs holders].
  - apply (ci_len _ _ _ I).
  - eapply chainR_impl; [|apply (ci_chain _ _ _ I)]. intros x q _ [[t' E]|[E H]].
    + left. exists t'. cbn [pcs]. rewrite upd_other; [exact E|]. intros ->. congruence.
    + right. split; [exact E|]. intros t' q'. cbn [pcs].
      destruct (upd_cases (pcs s) t (DXchg b) t') as [[-> U]|[N U]]; rewrite U; [discriminate|apply H].
  - apply nodup_app_iff. repeat split; auto. intros x Hx Hy. apply (N3 x Hx). auto.
  - intros x Hx. apply (ci_lt _ _ _ I). unfold held. rewrite in_app_iff in *. destruct Hx; auto.
  - intros t' x E. destruct (upd_cases (pcs s) t (DXchg b) t') as [[-> U]|[N U]]; rewrite U in E.
    + injection E as <-. split; [apply (ci_lt _ _ _ I); apply in_app_iff; auto|].
      rewrite in_app_iff. intros [Hx|Hx]; [now apply (N3 b Hx)|auto].
    + destruct (ci_xchg _ _ _ I t' x E) as [H1 H2]. split; [exact H1|]. intros Hx. apply H2.
      unfold held. rewrite in_app_iff in *. destruct Hx; auto.
  - intros t1 t2 x E1 E2.
    destruct (upd_cases (pcs s) t (DXchg b) t1) as [[-> U]|[M U]]; rewrite U in E1;
    destruct (upd_cases (pcs s) t (DXchg b) t2) as [[-> U2]|[M2 U2]]; rewrite U2 in E2; auto.
    + injection E1 as <-. exfalso. apply (proj2 (ci_xchg _ _ _ I t2 b E2)). apply in_app_iff. auto.
    + injection E2 as <-. exfalso. apply (proj2 (ci_xchg _ _ _ I t1 b E1)). apply in_app_iff. auto.
    + now apply (ci_xchg2 _ _ _ I t1 t2 x).
  - intros t' x q E. destruct (upd_cases (pcs s) t (DXchg b) t') as [[-> U]|[M U]]; rewrite U in E; [discriminate|].
    now apply (ci_link _ _ _ I t' x q).
  - intros t1 t2 x q q' E1 E2.
    destruct (upd_cases (pcs s) t (DXchg b) t1) as [[-> U]|[M U]]; rewrite U in E1; [discriminate|].
    destruct (upd_cases (pcs s) t (DXchg b) t2) as [[-> U2]|[M2 U2]]; rewrite U2 in E2; [discriminate|].
    now apply (ci_link2 _ _ _ I t1 t2 x q q').
  - intros x Hx. destruct (ci_all _ _ _ I x Hx) as [H|[t' H]].
    + unfold held in H. rewrite in_app_iff in *. destruct H as [H|H]; [left; auto|].
      destruct (Hin2 x H) as [->|H']; [right; exists t; apply upd_same|left; auto].
    + right. exists t'. rewrite upd_other; [exact H|]. intros ->. congruence.
  - intros t1 t2 A D. destruct (upd_cases (pcs s) t (DXchg b) t1) as [[-> U]|[M U]]; rewrite U in A; [exact A|].
    now apply (NA t1).
  - intros t' p E. exfalso. destruct (upd_cases (pcs s) t (DXchg b) t') as [[-> U]|[M U]]; rewrite U in E; [discriminate|].
    apply (NA t'). now rewrite E.
  - intros t' p q E. exfalso. destruct (upd_cases (pcs s) t (DXchg b) t') as [[-> U]|[M U]]; rewrite U in E; [discriminate|].
    apply (NA t'). now rewrite E.
Qed.

Lemma inv_xchg : forall n fr s t b,
  CInv n fr s -> pcs s t = DXchg b ->
  CInv n (b :: fr) (CState (cmem s) (At b) (upd (pcs s) t (DLink b (chead s))) (holders s) (pops s)).
Proof.
  intros n fr s t b I Hpc.
  destruct (ci_xchg _ _ _ I t b Hpc) as [Hb Hnin]. rewrite in_app_iff in Hnin.
  assert (NA : forall t', ~ allocating (pcs s t')).
  { intros t' A. apply (ci_phase _ _ _ I t' t A). now rewrite Hpc. }
  constructor; unfold held in *; cbn [cmem chead pcs holders].
  - apply (ci_len _ _ _ I).
  - split; [reflexivity|]. exists (chead s). split; [left; exists t; cbn [pcs]; apply upd_same|].
    eapply chainR_impl; [|apply (ci_chain _ _ _ I)]. intros x q Hx [[t' E]|[E H]].
    + left. exists t'. cbn [pcs]. rewrite upd_other; [exact E|]. intros ->. congruence.
    + right. split; [exact E|]. intros t' q'. cbn [pcs].
      destruct (upd_cases (pcs s) t (DLink b (chead s)) t') as [[-> U]|[N U]]; rewrite U; [|apply H].
      intros C. injection C as <- _. tauto.
  - simpl. apply NoDup_cons_iff. split; [rewrite in_app_iff; exact Hnin|]. apply (ci_nodup _ _ _ I).
  - intros x [<-|Hx]; [exact Hb|]. now apply (ci_lt _ _ _ I).
  - intros t' x E. destruct (upd_cases (pcs s) t (DLink b (chead s)) t') as [[-> U]|[N U]]; rewrite U in E; [discriminate|].
    destruct (ci_xchg _ _ _ I t' x E) as [H1 H2]. split; [exact H1|]. intros [<-|Hx]; [|now apply H2].
    apply N. now apply (ci_xchg2 _ _ _ I t' t b).
  - intros t1 t2 x E1 E2.
    destruct (upd_cases (pcs s) t (DLink b (chead s)) t1) as [[-> U]|[M U]]; rewrite U in E1; [discriminate|].
    destruct (upd_cases (pcs s) t (DLink b (chead s)) t2) as [[-> U2]|[M2 U2]]; rewrite U2 in E2; [discriminate|].
    now apply (ci_xchg2 _ _ _ I t1 t2 x).
  - intros t' x q E. destruct (upd_cases (pcs s) t (DLink b (chead s)) t') as [[-> U]|[N U]]; rewrite U in E.
    + injection E as <- _. now left.
    + right. now apply (ci_link _ _ _ I t' x q).
  - intros t1 t2 x q q' E1 E2.
    destruct (upd_cases (pcs s) t (DLink b (chead s)) t1) as [[-> U]|[M U]]; rewrite U in E1;
    destruct (upd_cases (pcs s) t (DLink b (chead s)) t2) as [[-> U2]|[M2 U2]]; rewrite U2 in E2; auto.
    + injection E1 as <- _. exfalso. pose proof (ci_link _ _ _ I t2 _ _ E2). tauto.
    + injection E2 as <- _. exfalso. pose proof (ci_link _ _ _ I t1 _ _ E1). tauto.
    + now apply (ci_link2 _ _ _ I t1 t2 x q q').
  - intros x Hx. destruct (ci_all _ _ _ I x Hx) as [H|[t' H]]; [left; now right|].
    destruct (Nat.eq_dec t' t) as [->|N].
    + left. left. congruence.
    + right. exists t'. now rewrite upd_other.
  - intros t1 t2 A D. destruct (upd_cases (pcs s) t (DLink b (chead s)) t1) as [[-> U]|[M U]]; rewrite U in A; [exact A|].
    now apply (NA t1).
  - intros t' p E. exfalso. destruct (upd_cases (pcs s) t (DLink b (chead s)) t') as [[-> U]|[M U]]; rewrite U in E; [discriminate|].
    apply (NA t'). now rewrite E.
  - intros t' p q E. exfalso. destruct (upd_cases (pcs s) t (DLink b (chead s)) t') as [[-> U]|[M U]]; rewrite U in E; [discriminate|].
    apply (NA t'). now rewrite E.
Qed.

Lemma inv_link : forall n fr s t b q,
  CInv n fr s -> pcs s t = DLink b q ->
  (b < length (cmem s))%nat /\
  CInv n fr (CState (replace_nth b (CNext q) (cmem s)) (chead s) (upd (pcs s) t Idle) (holders s) (pops s)).
Proof.
  intros n fr s t b q I Hpc.
  pose proof (ci_link _ _ _ I t b q Hpc) as Hin.
  assert (Hb : (b < length (cmem s))%nat).
  { rewrite (ci_len _ _ _ I). apply (ci_lt _ _ _ I). apply in_app_iff. now left. }
  split; [exact Hb|].
  assert (NA : forall t', ~ allocating (pcs s t')).
  { intros t' A. apply (ci_phase _ _ _ I t' t A). now rewrite Hpc. }
  constructor; unfold held in *; cbn [cmem chead pcs holders].
  - rewrite replace_nth_length. apply (ci_len _ _ _ I).
  - eapply chainR_impl; [|apply (ci_chain _ _ _ I)]. intros x y Hx L.
    destruct (Nat.eq_dec x b) as [->|Nx].
    + assert (y = q) as ->.
      { destruct L as [[t' E]|[_ H]]; [|exfalso; now apply (H t q)].
        pose proof (ci_link2 _ _ _ I t' t b y q E Hpc). subst t'. congruence. }
      right. split; cbn [cmem pcs].
      * rewrite replace_nth_error by exact Hb. now rewrite Nat.eqb_refl.
      * intros t' q' E. destruct (upd_cases (pcs s) t Idle t') as [[-> U]|[N U]]; rewrite U in E; [discriminate|].
        apply N. now apply (ci_link2 _ _ _ I t' t b q' q).
    + destruct L as [[t' E]|[E H]].
      * left. exists t'. cbn [pcs]. rewrite upd_other; [exact E|]. intros ->. congruence.
      * right. split; cbn [cmem pcs].
        -- rewrite replace_nth_error by exact Hb. destruct (Nat.eqb_spec x b); [congruence|exact E].
        -- intros t' q' C. destruct (upd_cases (pcs s) t Idle t') as [[-> U]|[N U]]; rewrite U in C; [discriminate|].
           now apply (H t' q').
  - apply (ci_nodup _ _ _ I).
  - apply (ci_lt _ _ _ I).
  - intros t' x E. destruct (upd_cases (pcs s) t Idle t') as [[-> U]|[N U]]; rewrite U in E; [discriminate|].
    now apply (ci_xchg _ _ _ I t').
  - intros t1 t2 x E1 E2.
    destruct (upd_cases (pcs s) t Idle t1) as [[-> U]|[M U]]; rewrite U in E1; [discriminate|].
    destruct (upd_cases (pcs s) t Idle t2) as [[-> U2]|[M2 U2]]; rewrite U2 in E2; [discriminate|].
    now apply (ci_xchg2 _ _ _ I t1 t2 x).
  - intros t' x y E. destruct (upd_cases (pcs s) t Idle t') as [[-> U]|[N U]]; rewrite U in E; [discriminate|].
    now apply (ci_link _ _ _ I t' x y).
  - intros t1 t2 x y y' E1 E2.
    destruct (upd_cases (pcs s) t Idle t1) as [[-> U]|[M U]]; rewrite U in E1; [discriminate|].
    destruct (upd_cases (pcs s) t Idle t2) as [[-> U2]|[M2 U2]]; rewrite U2 in E2; [discriminate|].
    now apply (ci_link2 _ _ _ I t1 t2 x y y').
  - intros x Hx. destruct (ci_all _ _ _ I x Hx) as [H|[t' H]]; [now left|right].
    exists t'. rewrite upd_other; [exact H|]. intros ->. congruence.
  - intros t1 t2 A D. destruct (upd_cases (pcs s) t Idle t1) as [[-> U]|[M U]]; rewrite U in A; [exact A|].
    now apply (NA t1).
  - intros t' p E. exfalso. destruct (upd_cases (pcs s) t Idle t') as [[-> U]|[M U]]; rewrite U in E; [discriminate|].
    apply (NA t'). now rewrite E.
  - intros t' p y E. exfalso. destruct (upd_cases (pcs s) t Idle t') as [[-> U]|[M U]]; rewrite U in E; [discriminate|].
    apply (NA t'). now rewrite E.
Qed.

Lemma inv_write : forall n fr s t b v,
  CInv n fr s -> holds s t b = true -> (b < length (cmem s))%nat ->
  CInv n fr (CState (replace_nth b (CData v) (cmem s)) (chead s) (pcs s) (holders s) (pops s)).
Proof.
  intros n fr s t b v I Hh Hb. apply holds_in in Hh.
  assert (Hin : In b (held s)) by (apply in_map_iff; exists (t, b); auto).
  assert (Hfr : forall x, In x fr -> x <> b).
  { intros x Hx ->. pose proof (ci_nodup _ _ _ I) as Hnd. apply nodup_app_iff in Hnd. destruct Hnd as [_ [_ N3]].
    now apply (N3 b). }
  destruct I. constructor; unfold held in *; cbn [cmem chead pcs holders]; auto.
  - now rewrite replace_nth_length.
  - eapply chainR_impl; [|exact ci_chain0]. intros x q Hx [[t' E]|[E H]]; [left; eauto|right].
    split; cbn [cmem pcs]; auto. rewrite replace_nth_error by exact Hb.
    destruct (Nat.eqb_spec x b); [exfalso; now apply (Hfr x)|exact E].
  - intros t' p q E. destruct (ci_cas0 t' p q E) as [x [-> [Hx Hq]]]. exists x. repeat split; auto.
    intros Hy. rewrite replace_nth_error by exact Hb. destruct (Nat.eqb_spec x b); [exfalso; now apply (Hfr x)|auto].
Qed.

Lemma inv_cstep : forall n fr s l, CInv n fr s -> phase_ok l s ->
  cstep l s <> Crash /\ forall s', cstep l s = Step s' -> exists fr', CInv n fr' s'.
Proof.
  intros n fr s l I P. destruct l as [t|t|t|t sp|t b|t|t|t b v]; simpl in *.
  - destruct (pcs s t) eqn:E; split; try discriminate. intros s' H. injection H as <-. exists fr.
    apply inv_set_pc; auto; try (rewrite E; discriminate); discriminate.
  - destruct (pcs s t) eqn:E; split; try discriminate. intros s' H. injection H as <-. exists fr.
    apply inv_set_pc; auto; try (rewrite E; discriminate).
    + destruct (chead s); simpl; auto.
    + intros _. left. now rewrite E.
    + intros p Hp. pose proof (ci_chain _ _ _ I) as C. destruct fr as [|b fr']; simpl in C.
      * rewrite C in Hp. discriminate.
      * destruct C as [C _]. rewrite C in Hp. injection Hp as <-. exists b. split; [reflexivity|].
        apply (ci_lt _ _ _ I). now left.
    + intros p q Hp. destruct (chead s); discriminate.
  - destruct (pcs s t) as [| |p| | |] eqn:E; try (split; discriminate).
    destruct (ci_read _ _ _ I t p E) as [b [-> Hb]].
    destruct (nth_error (cmem s) b) as [c|] eqn:En; [|apply nth_error_None in En; rewrite (ci_len _ _ _ I) in En; lia].
    split; [discriminate|]. intros s' H. injection H as <-. exists fr.
    apply inv_set_pc; auto; try (rewrite E; discriminate).
    + intros _. left. now rewrite E.
    + discriminate.
    + intros p q H. injection H as <- <-. exists b. repeat split; auto. intros Hin.
      assert (A : allocating (pcs s t)) by (rewrite E; exact Logic.I).
      assert (Hlk : exists q', lk s b q').
      { clear - Hin I. pose proof (ci_chain _ _ _ I) as C. revert C. generalize (chead s). clear I.
        induction fr as [|x fr IH]; intros h C; [destruct Hin|]. destruct C as [_ [q [L C]]].
        destruct Hin as [->|Hin]; eauto. }
      destruct Hlk as [q' L]. pose proof (lk_alloc _ _ _ _ _ _ I A L) as Hq. rewrite En in Hq. injection Hq as ->. exact En.
  - destruct (pcs s t) as [| | |p q| |] eqn:E; try (split; discriminate).
    destruct (ci_cas _ _ _ I t p q E) as [b [-> [Hb Hq]]].
    destruct (ptr_eqb (chead s) (At b) && negb sp) eqn:Ec; (split; [discriminate|]); intros s' H; injection H as <-.
    + apply andb_true_iff in Ec. destruct Ec as [Ec _]. apply ptr_eqb_true in Ec.
      destruct (inv_cas n fr s t b q I E Ec) as [fr' [_ I']]. eauto.
    + exists fr. apply inv_set_pc; auto; try (rewrite E; discriminate); try discriminate.
      intros _. left. now rewrite E.
  - destruct (pcs s t) eqn:E; try (split; discriminate). destruct (holds s t b) eqn:Eh; (split; [discriminate|]); try discriminate.
    intros s' H. injection H as <-. exists fr. now apply inv_free.
  - destruct (pcs s t) eqn:E; try (split; discriminate). split; [discriminate|]. intros s' H. injection H as <-.
    eexists. eapply inv_xchg; eauto.
  - destruct (pcs s t) eqn:E; try (split; discriminate). destruct (inv_link n fr s t b old I E) as [Hb I'].
    apply Nat.ltb_lt in Hb. rewrite Hb. split; [discriminate|]. intros s' H. injection H as <-. eauto.
  - destruct (pcs s t) eqn:E; try (split; discriminate).
    destruct (holds s t b) eqn:Eh; simpl; [|split; discriminate].
    destruct (Nat.ltb_spec b (length (cmem s))) as [Hb|Hb]; (split; [discriminate|]); try discriminate.
    intros s' H. injection H as <-. exists fr. eapply inv_write; eauto.
Qed.

Lemma phased_run_inv : forall n s ls s', phased_run s ls s' -> forall fr, CInv n fr s -> exists fr', CInv n fr' s'.
Proof.
  intros n s ls s' R. induction R as [s|s l s1 ls s2 P E R IH]; intros fr I; [eauto|].
  destruct (inv_cstep n fr s l I P) as [_ H]. destruct (H _ E) as [fr1 I1]. eapply IH; eauto.
Qed.

Lemma phased_inv : forall n s, (0 < n)%nat -> phased_reachable n s -> exists fr, CInv n fr s.
Proof. intros n s Hn [ls R]. eapply phased_run_inv; [exact R|apply cinit_inv; exact Hn]. Qed.

(** ** Consequences *)

Lemma phased_exclusive : forall n s, (0 < n)%nat -> phased_reachable n s ->
  NoDup (held s) /\ (forall b, In b (held s) -> (b < n)%nat) /\
  (forall l, phase_ok l s -> cstep l s <> Crash).
Proof.
  intros n s Hn R. destruct (phased_inv n s Hn R) as [fr I]. pose proof (ci_nodup _ _ _ I) as Hnd.
  apply nodup_app_iff in Hnd. repeat split; [tauto| |].
  - intros b Hb. apply (ci_lt _ _ _ I). apply in_app_iff. auto.
  - intros l P. now apply (inv_cstep n fr s l I P).
Qed.

Lemma count_all : forall n fr s, CInv n fr s -> (forall t b, pcs s t <> DXchg b) -> (length fr + length (held s) = n)%nat.
Proof.
  intros n fr s I H. rewrite <- app_length.
  replace n with (length (seq 0 n)) by apply seq_length. apply Permutation_length.
  apply NoDup_Permutation; [apply (ci_nodup _ _ _ I)|apply seq_NoDup|].
  intros x. rewrite in_seq. split; intros Hx.
  - pose proof (ci_lt _ _ _ I x Hx). lia.
  - destruct (ci_all _ _ _ I x ltac:(lia)) as [Hy|[t Hy]]; [exact Hy|]. exfalso. now apply (H t x).
Qed.

Lemma phased_null : forall n s t, (0 < n)%nat -> phased_reachable n s -> pcs s t = ALoad ->
  (chead s = Null <-> length (held s) = n).
Proof.
  intros n s t Hn R E. destruct (phased_inv n s Hn R) as [fr I].
  assert (HX : forall t' b, pcs s t' <> DXchg b).
  { intros t' b C. apply (ci_phase _ _ _ I t t'); [rewrite E|rewrite C]; exact Logic.I. }
  pose proof (count_all n fr s I HX) as Hc. pose proof (ci_chain _ _ _ I) as C.
  destruct fr as [|b fr']; simpl in *.
  - split; intros; [lia|exact C].
  - destruct C as [C _]. split; intros H; [congruence|lia].
Qed.

Lemma phased_refused : forall n s l s' t, (0 < n)%nat -> phased_reachable n s -> cstep l s = Step s' ->
  allocating (pcs s t) -> pcs s' t = Idle ->
  (holders s' = holders s <-> length (held s) = n) /\ (holders s' = holders s \/ exists b, holders s' = (t, b) :: holders s).
Proof.
  intros n s l s' t Hn R E A D. destruct (phased_inv n s Hn R) as [fr I].
  assert (HX : forall t' b, pcs s t' <> DXchg b).
  { intros t' b C. apply (ci_phase _ _ _ I t t'); [exact A|rewrite C; exact Logic.I]. }
  pose proof (count_all n fr s I HX) as Hc. pose proof (ci_chain _ _ _ I) as C.
  assert (Ho : forall u c, pcs s' = upd (pcs s) u c -> u = t).
  { intros u c Eu. rewrite Eu in D. destruct (upd_cases (pcs s) u c t) as [[-> U]|[N U]]; [reflexivity|]. rewrite U in D. rewrite D in A. destruct A. }
  destruct l as [u|u|u|u sp|u b|u|u|u b v]; unfold cstep in E; destruct (pcs s u) as [| |p|p q|x|x old] eqn:Ep; try discriminate E.
  - injection E as <-. assert (u = t) as -> by (eapply Ho; reflexivity). cbn [set_pc pcs] in D. rewrite upd_same in D. discriminate D.
  - injection E as <-. assert (u = t) as -> by (eapply Ho; reflexivity). cbn [set_pc pcs holders] in *. rewrite upd_same in D.
    split; [|now left]. rewrite <- (phased_null n s t Hn R Ep). destruct (chead s); try discriminate D. tauto.
  - destruct p as [|b|z]; try discriminate E. destruct (nth_error (cmem s) b); [|discriminate E]. injection E as <-.
    assert (u = t) as -> by (eapply Ho; reflexivity). cbn [set_pc pcs] in D. rewrite upd_same in D. discriminate D.
  - destruct p as [|b|z]; try discriminate E. destruct (ptr_eqb (chead s) (At b) && negb sp) eqn:Ec; injection E as <-;
      (assert (u = t) as -> by (eapply Ho; reflexivity)).
    + cbn [holders]. split; [|right; now exists b]. apply andb_true_iff in Ec. destruct Ec as [Ec _]. apply ptr_eqb_true in Ec.
      rewrite Ec in C. destruct fr as [|y fr]; [discriminate C|]. cbn [length] in Hc. split; [|intro; lia].
      intro H. apply (f_equal (@length _)) in H. cbn [length] in H. lia.
    + cbn [set_pc pcs] in D. rewrite upd_same in D. discriminate D.
  - destruct (holds s u b); [|discriminate E]. injection E as <-. assert (u = t) as -> by (eapply Ho; reflexivity).
    rewrite Ep in A. destruct A.
  - injection E as <-. assert (u = t) as -> by (eapply Ho; reflexivity). rewrite Ep in A. destruct A.
  - destruct (_ <? _)%nat; [|discriminate E]. injection E as <-. assert (u = t) as -> by (eapply Ho; reflexivity). rewrite Ep in A. destruct A.
  - destruct (_ && _); [|discriminate E]. injection E as <-. cbn [pcs] in D. rewrite D in A. destruct A.
Qed.

Lemma phased_not_lost : forall n s t, (0 < n)%nat -> phased_reachable n s -> quiescent s -> (length (held s) < n)%nat ->
  exists b s', phased_run s [LStartAlloc t; LLoad t; LRead t; LCas t false] s' /\
    holders s' = (t, b) :: holders s /\ quiescent s' /\ ~ In b (held s) /\ (b < n)%nat.
Proof.
  intros n s t Hn R Q Hl. destruct (phased_inv n s Hn R) as [fr I].
  assert (HX : forall t' b, pcs s t' <> DXchg b) by (intros t' b C; rewrite Q in C; discriminate).
  pose proof (count_all n fr s I HX) as Hc. pose proof (ci_chain _ _ _ I) as C.
  destruct fr as [|b fr']; [simpl in Hc; lia|]. destruct C as [Hh [q [L C]]].
  assert (En : nth_error (cmem s) b = Some (CNext q)).
  { destruct L as [[t' E]|[E _]]; [rewrite Q in E; discriminate|exact E]. }
  set (s1 := set_pc s t ALoad). set (s2 := set_pc s1 t (ARead (At b))). set (s3 := set_pc s2 t (ACas (At b) q)).
  exists b. eexists. split; [|split; [|split; [|split]]].
  - apply phased_cons with (s1 := s1); [intros t' D; rewrite Q in D; exact D|simpl; rewrite Q; reflexivity|].
    apply phased_cons with (s1 := s2); [exact Logic.I| |].
    { unfold cstep, s1. cbn [set_pc pcs chead]. rewrite upd_same, Hh. reflexivity. }
    apply phased_cons with (s1 := s3); [exact Logic.I| |].
    { unfold cstep, s2. cbn [set_pc pcs cmem]. rewrite upd_same. unfold s1. cbn [set_pc cmem]. rewrite En. reflexivity. }
    eapply phased_cons; [exact Logic.I| |apply phased_nil].
    unfold cstep, s3. cbn [set_pc pcs chead]. rewrite upd_same. unfold s2, s1. cbn [set_pc chead]. rewrite Hh.
    cbn [ptr_eqb]. rewrite Nat.eqb_refl. reflexivity.
  - reflexivity.
  - intros t'. unfold s3, s2, s1. cbn [set_pc pcs]. unfold upd. destruct (t' =? t)%nat; [reflexivity|apply Q].
  - pose proof (ci_nodup _ _ _ I) as Hnd. apply nodup_app_iff in Hnd. destruct Hnd as [_ [_ N3]]. apply N3. now left.
  - apply (ci_lt _ _ _ I). now left.
Qed.

(** ** Progress *)

Lemma solo_load : forall s t b c, pcs s t = ALoad -> chead s = At b -> nth_error (cmem s) b = Some c ->
  exists s', solo 3 s t = Step s' /\ pcs s' t = Idle /\ holders s' = (t, b) :: holders s.
Proof.
  intros s t b c E Hh En. eexists. split; [|split].
  - cbn [solo]. unfold own_step at 1. rewrite E. unfold cstep at 1. rewrite E, Hh.
    cbn [solo]. unfold own_step at 1. cbn [set_pc pcs]. rewrite upd_same. unfold cstep at 1. cbn [set_pc pcs cmem].
    rewrite upd_same, En.
    cbn [solo]. unfold own_step at 1. cbn [set_pc pcs]. rewrite upd_same. unfold cstep at 1. cbn [set_pc pcs chead].
    rewrite upd_same, Hh. cbn [ptr_eqb]. rewrite Nat.eqb_refl. cbn [andb negb]. reflexivity.
  - cbn [pcs]. apply upd_same.
  - reflexivity.
Qed.

Lemma solo_load_null : forall s t, pcs s t = ALoad -> chead s = Null ->
  exists s', solo 1 s t = Step s' /\ pcs s' t = Idle /\ holders s' = holders s.
Proof.
  intros s t E Hh. eexists. split; [|split].
  - cbn [solo]. unfold own_step at 1. rewrite E. unfold cstep at 1. rewrite E, Hh. reflexivity.
  - cbn [set_pc pcs]. apply upd_same.
  - reflexivity.
Qed.

Lemma cas_failure : forall s1 ls s2 t b,
  phased_run s1 ls s2 -> (forall t', ~ deallocating (pcs s1 t')) ->
  (forall l, In l ls -> l <> LLoad t) ->
  (exists p, pcs s1 t = ARead p) \/ (exists p q, pcs s1 t = ACas p q) ->
  (exists q, pcs s2 t = ACas (At b) q) ->
  chead s1 = chead s2 \/ (pops s1 < pops s2)%nat.
Proof.
  intros s1 ls s2 t b R. induction R as [s|s l s1 ls s2 P E R IH]; intros ND NL Hs He; [now left|].
  assert (A : allocating (pcs s t)) by (destruct Hs as [[p H]|[p [q H]]]; rewrite H; exact Logic.I).
  assert (NL' : forall l', In l' ls -> l' <> LLoad t) by (intros; apply NL; now right).
  assert (Hl : l <> LLoad t) by (apply NL; now left).
  assert (Mono : forall s0 ls0 s9, phased_run s0 ls0 s9 -> (pops s0 <= pops s9)%nat).
  { intros s0 ls0 s9 R0. induction R0 as [|u l0 u1 ls0 u2 P0 E0 R0 IH0]; [lia|]. assert (pops u <= pops u1)%nat; [|lia].
    destruct l0; simpl in E0;
      repeat match type of E0 with
      | context [match ?x with _ => _ end] => destruct x eqn:?; try discriminate
      end; injection E0 as <-; simpl; lia. }
  pose proof (Mono _ _ _ R) as Hm.
  destruct l as [t'|t'|t'|t' sp|t' x|t'|t'|t' x v]; simpl in E, P.
  - (* StartAlloc *)
    destruct (pcs s t') eqn:Et; try discriminate. injection E as <-.
    assert (t' <> t) by (intros ->; rewrite Et in A; exact A).
    apply IH; auto.
    + intros t2. cbn [set_pc pcs]. destruct (upd_cases (pcs s) t' ALoad t2) as [[-> U]|[N U]]; rewrite U; auto.
    + cbn [set_pc pcs]. rewrite upd_other by auto. exact Hs.
  - (* Load by another thread *)
    destruct (pcs s t') eqn:Et; try discriminate. injection E as <-.
    assert (t' <> t) by congruence.
    apply IH; auto.
    + intros t2. cbn [set_pc pcs]. destruct (upd_cases (pcs s) t' (match chead s with Null => Idle | p => ARead p end) t2) as [[-> U]|[N U]];
        rewrite U; auto. destruct (chead s); auto.
    + cbn [set_pc pcs]. rewrite upd_other by auto. exact Hs.
  - (* Read *)
    destruct (pcs s t') as [| |p| | |] eqn:Et; try discriminate. destruct p as [|y|]; try discriminate.
    destruct (nth_error (cmem s) y) eqn:En; try discriminate. injection E as <-.
    apply IH; auto.
    + intros t2. cbn [set_pc pcs]. destruct (upd_cases (pcs s) t' (ACas (At y) (as_ptr c)) t2) as [[-> U]|[N U]]; rewrite U; auto.
    + cbn [set_pc pcs]. destruct (upd_cases (pcs s) t' (ACas (At y) (as_ptr c)) t) as [[-> U]|[N U]]; rewrite U; [right; eauto|exact Hs].
  - (* Cas *)
    destruct (pcs s t') as [| | |p q| |] eqn:Et; try discriminate. destruct p as [|y|]; try discriminate.
    destruct (ptr_eqb (chead s) (At y) && negb sp) eqn:Ec; injection E as <-.
    + right. simpl in Hm. lia.
    + destruct (Nat.eq_dec t' t) as [->|N].
      * (* own failure: the thread would have to load again before the end *)
        exfalso. clear - R NL' He.
        assert (H : forall u ls u', phased_run u ls u' -> pcs u t = ALoad -> (forall l, In l ls -> l <> LLoad t) -> pcs u' t = ALoad).
        { clear. intros u ls u' R. induction R as [|u l u1 ls u2 P E R IH]; intros Hu HL; [exact Hu|].
          assert (L0 : l <> LLoad t) by (apply HL; now left).
          apply IH; [|intros; apply HL; now right].
          destruct l as [t'|t'|t'|t' sp|t' x|t'|t'|t' x v]; simpl in E;
            (destruct (Nat.eq_dec t' t) as [->|N]; [rewrite Hu in E; try discriminate; congruence|]);
            repeat match type of E with
            | context [match ?x with _ => _ end] => destruct x eqn:?; try discriminate
            end; injection E as <-; cbn [set_pc pcs]; rewrite ?upd_other by auto; exact Hu. }
        destruct He as [q' He]. rewrite (H _ _ _ R) in He; [discriminate| |exact NL'].
        cbn [set_pc pcs]. apply upd_same.
      * apply IH; auto.
        -- intros t2. cbn [set_pc pcs]. destruct (upd_cases (pcs s) t' ALoad t2) as [[-> U]|[N2 U]]; rewrite U; auto.
        -- cbn [set_pc pcs]. rewrite upd_other by auto. exact Hs.
  - exfalso. now apply (P t).
  - destruct (pcs s t') eqn:Et; try discriminate. exfalso. apply (ND t'). rewrite Et. exact Logic.I.
  - destruct (pcs s t') eqn:Et; try discriminate. exfalso. apply (ND t'). rewrite Et. exact Logic.I.
  - destruct (pcs s t') eqn:Et; try discriminate. destruct (holds s t' x && _); try discriminate. injection E as <-.
    change (chead s) with (chead (CState (replace_nth x (CData v) (cmem s)) (chead s) (pcs s) (holders s) (pops s))).
    apply IH; auto.
Qed.

Lemma phased_data : forall n s l s' b, (0 < n)%nat -> phased_reachable n s -> phase_ok l s -> In b (held s) ->
  cstep l s = Step s' -> (forall t v, l <> LWrite t b v) -> nth_error (cmem s') b = nth_error (cmem s) b.
Proof.
  intros n s l s' b Hn R P Hb E NW. destruct (phased_inv n s Hn R) as [fr I].
  destruct l as [t|t|t|t sp|t x|t|t|t x v]; simpl in E;
    try (repeat match type of E with
         | context [match ?x with _ => _ end] => destruct x eqn:?; try discriminate
         end; injection E as <-; reflexivity).
  - destruct (pcs s t) as [| | | | |x old] eqn:Et; try discriminate.
    destruct (Nat.ltb_spec x (length (cmem s))) as [Hx|Hx]; [|discriminate]. injection E as <-. cbn [cmem].
    rewrite replace_nth_error by exact Hx. destruct (Nat.eqb_spec b x) as [->|]; [|reflexivity].
    exfalso. pose proof (ci_link _ _ _ I t x old Et). pose proof (ci_nodup _ _ _ I) as Hnd.
    apply nodup_app_iff in Hnd. destruct Hnd as [_ [_ N3]]. now apply (N3 x).
  - destruct (pcs s t) eqn:Et; try discriminate. destruct (holds s t x); try discriminate. cbn [andb] in E.
    destruct (Nat.ltb_spec x (length (cmem s))) as [Hx|Hx]; [|discriminate]. injection E as <-. cbn [cmem].
    rewrite replace_nth_error by exact Hx. destruct (Nat.eqb_spec b x) as [->|]; [|reflexivity].
    exfalso. now apply (NW t v).
Qed.

Lemma crun_app : forall l1 l2 s, crun (l1 ++ l2) s = match crun l1 s with Step s' => crun l2 s' | e => e end.
Proof. induction l1 as [|l l1 IH]; intros; simpl; [reflexivity|]. destruct (cstep l s); auto. Qed.

(** ** Executable check of the phase discipline for schedules of threads below [k] (used in examples) *)

Definition tid (l : label) : nat :=
  match l with
  | LStartAlloc t | LLoad t | LRead t | LCas t _ | LStartFree t _ | LXchg t | LLink t | LWrite t _ _ => t
  end.
Definition busy_alloc (c : pc) : bool := match c with ALoad | ARead _ | ACas _ _ => true | _ => false end.
Definition busy_free (c : pc) : bool := match c with DXchg _ | DLink _ _ => true | _ => false end.
Definition phase_okb (k : nat) (l : label) (s : cstate) : bool :=
  (tid l <? k)%nat &&
  match l with
  | LStartAlloc _ => forallb (fun t => negb (busy_free (pcs s t))) (seq 0 k)
  | LStartFree _ _ => forallb (fun t => negb (busy_alloc (pcs s t))) (seq 0 k)
  | _ => true
  end.
Fixpoint crunp (k : nat) (ls : list label) (s : cstate) : effect :=
  match ls with
  | [] => Step s
  | l :: t => if phase_okb k l s then match cstep l s with Step s' => crunp k t s' | e => e end else Disabled
  end.

Lemma crunp_phased : forall k ls s s', (forall t, (k <= t)%nat -> pcs s t = Idle) -> crunp k ls s = Step s' ->
  phased_run s ls s' /\ forall t, (k <= t)%nat -> pcs s' t = Idle.
Proof.
  intros k ls. induction ls as [|l ls IH]; intros s s' Hi E; simpl in E.
  - injection E as <-. split; [constructor|exact Hi].
  - destruct (phase_okb k l s) eqn:Ep; [|discriminate]. unfold phase_okb in Ep. apply andb_true_iff in Ep.
    destruct Ep as [Et Ep]. apply Nat.ltb_lt in Et.
    destruct (cstep l s) as [| |s1] eqn:Es; try discriminate.
    assert (Hi1 : forall t, (k <= t)%nat -> pcs s1 t = Idle).
    { intros t Ht. specialize (Hi t Ht).
      destruct l as [t'|t'|t'|t' sp|t' x|t'|t'|t' x v]; simpl in Es, Et;
      (repeat match type of Es with
       | context [match ?x with _ => _ end] => destruct x eqn:?; try discriminate
       end; injection Es as <-; cbn [set_pc pcs]; rewrite ?upd_other by lia; exact Hi). }
    destruct (IH s1 s' Hi1 E) as [R H]. split; [|exact H]. apply phased_cons with (s1 := s1); auto.
    destruct l as [t'|t'|t'|t' sp|t' x|t'|t'|t' x v]; simpl; auto; intros t.
    + destruct (le_lt_dec k t) as [Ht|Ht]; [rewrite Hi by exact Ht; auto|].
      rewrite forallb_forall in Ep. specialize (Ep t). rewrite in_seq in Ep. specialize (Ep ltac:(lia)).
      destruct (pcs s t); simpl in *; try discriminate; auto.
    + destruct (le_lt_dec k t) as [Ht|Ht]; [rewrite Hi by exact Ht; auto|].
      rewrite forallb_forall in Ep. specialize (Ep t). rewrite in_seq in Ep. specialize (Ep ltac:(lia)).
      destruct (pcs s t); simpl in *; try discriminate; auto.
Qed.

(** ** The pool after construction, block by block *)
Lemma cinit_one : forall n, (1 <= n)%nat -> exists q r, cinit n = CState (CNext q :: r) (At 0) (fun _ => Idle) [] 0.
Proof.
  intros n Hn. destruct (pool_init_chain n Hn) as [_ C]. destruct n as [|n]; [lia|]. cbn [seq chain] in C.
  destruct C as [Eh [q [En _]]]. unfold cinit. rewrite Eh. destruct (mem (pool_init (S n))) as [|c r]; [discriminate En|].
  injection En as ->. eauto.
Qed.

Lemma cinit_two : forall n, (2 <= n)%nat ->
  exists q r, cinit n = CState (CNext (At 1) :: CNext q :: r) (At 0) (fun _ => Idle) [] 0.
Proof.
  intros n Hn. destruct (pool_init_chain n) as [_ C]; [lia|]. destruct n as [|[|n]]; try lia. cbn [seq chain] in C.
  destruct C as [Eh [q [En [-> [q' [En' _]]]]]]. unfold cinit. rewrite Eh.
  destruct (mem (pool_init (S (S n)))) as [|c [|c' r]]; try discriminate. injection En as ->. injection En' as ->. eauto.
Qed.
