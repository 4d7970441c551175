From Coq Require Import ZArith Bool List Arith Lia Permutation.
From Verif Require Import Outcome CanFrameModel CanFrameProofs PoolModel PoolSpec PoolProofs PoolConcModel PoolConcSpec PoolConcProofs
  PoolUseSpec.
Import ListNotations.
Open Scope Z_scope.

Record WInv (n : nat) (fr : list nat) (s : cstate) : Prop := {
  wi_len : length (cmem s) = n;
  wi_chain : chainR (lk s) (chead s) fr;
  wi_nodup : NoDup (fr ++ held s);
  wi_lt : forall b, In b (fr ++ held s) -> (b < n)%nat;
  wi_xchg : forall t b, pcs s t = DXchg b -> (b < n)%nat /\ ~ In b (fr ++ held s);
  wi_xchg2 : forall t t' b, pcs s t = DXchg b -> pcs s t' = DXchg b -> t = t';
  wi_link : forall t b q, pcs s t = DLink b q -> In b fr;
  wi_link2 : forall t t' b q q', pcs s t = DLink b q -> pcs s t' = DLink b q' -> t = t';
  wi_all : forall b, (b < n)%nat -> In b (fr ++ held s) \/ exists t, pcs s t = DXchg b;
  wi_read : forall t p, pcs s t = ARead p -> exists b, p = At b /\ (b < n)%nat;
  wi_cas : forall t p q, pcs s t = ACas p q ->
    exists b, p = At b /\ (b < n)%nat /\
      (In b fr -> nth_error (cmem s) b = Some (CNext q) /\ forall t', ~ unlinked (pcs s t') b)
}.

Lemma winit : forall n, (0 < n)%nat -> WInv n (seq 0 n) (cinit n).
Proof.
  intros n Hn. destruct (cinit_inv n Hn). constructor; auto. intros t p q E. discriminate E.
Qed.

(** Steps that only move the program counter of [t], between places outside of deallocate. *)
Lemma w_set_pc : forall n fr s t c,
  WInv n fr s -> ~ deallocating (pcs s t) -> ~ deallocating c ->
  (forall p, c = ARead p -> exists b, p = At b /\ (b < n)%nat) ->
  (forall p q, c = ACas p q -> exists b, p = At b /\ (b < n)%nat /\
     (In b fr -> nth_error (cmem s) b = Some (CNext q) /\ forall t', ~ unlinked (pcs s t') b)) ->
  WInv n fr (set_pc s t c).
Proof.
  intros n fr s t c I Hd0 Hd Hr Hc.
  assert (Hl : forall b q, pcs s t <> DLink b q) by (intros b q E; apply Hd0; rewrite E; exact Logic.I).
  assert (Hx : forall b, pcs s t <> DXchg b) by (intros b E; apply Hd0; rewrite E; exact Logic.I).
  assert (Hlk : forall b q, lk s b q -> lk (set_pc s t c) b q).
  { intros b q [[t' E]|[E H]].
    - left. exists t'. cbn [set_pc pcs]. rewrite upd_other; [exact E|]. intros ->. now apply (Hl b q).
    - right. split; [exact E|]. intros t' q' C. cbn [set_pc pcs] in C.
      destruct (upd_cases (pcs s) t c t') as [[-> U]|[N U]]; rewrite U in C.
      + subst c. apply Hd. exact Logic.I.
      + now apply (H t' q'). }
  assert (Hu : forall t' b, unlinked (upd (pcs s) t c t') b -> unlinked (pcs s t') b).
  { intros t' b [q E]. destruct (upd_cases (pcs s) t c t') as [[-> U]|[N U]]; rewrite U in E.
    - subst c. exfalso. now apply Hd.
    - now exists q. }
  constructor; unfold held in *; cbn [set_pc cmem chead pcs holders].
  - apply (wi_len _ _ _ I).
  - eapply chainR_impl; [|apply (wi_chain _ _ _ I)]. intros b q _. apply Hlk.
  - apply (wi_nodup _ _ _ I).
  - apply (wi_lt _ _ _ I).
  - intros t' b E. destruct (upd_cases (pcs s) t c t') as [[-> U]|[N U]]; rewrite U in E.
    + subst c. exfalso. apply Hd. exact Logic.I.
    + now apply (wi_xchg _ _ _ I t').
  - intros t1 t2 b E1 E2.
    destruct (upd_cases (pcs s) t c t1) as [[-> U]|[N U]]; rewrite U in E1; [subst c; exfalso; now apply Hd|].
    destruct (upd_cases (pcs s) t c t2) as [[-> U2]|[N2 U2]]; rewrite U2 in E2; [subst c; exfalso; now apply Hd|].
    now apply (wi_xchg2 _ _ _ I t1 t2 b).
  - intros t' b q E. destruct (upd_cases (pcs s) t c t') as [[-> U]|[N U]]; rewrite U in E.
    + subst c. exfalso. now apply Hd.
    + now apply (wi_link _ _ _ I t' b q).
  - intros t1 t2 b q q' E1 E2.
    destruct (upd_cases (pcs s) t c t1) as [[-> U]|[N U]]; rewrite U in E1; [subst c; exfalso; now apply Hd|].
    destruct (upd_cases (pcs s) t c t2) as [[-> U2]|[N2 U2]]; rewrite U2 in E2; [subst c; exfalso; now apply Hd|].
    now apply (wi_link2 _ _ _ I t1 t2 b q q').
  - intros b Hb. destruct (wi_all _ _ _ I b Hb) as [H|[t' H]]; [now left|right]. exists t'.
    rewrite upd_other; [exact H|]. intros ->. now apply (Hx b).
  - intros t' p E. destruct (upd_cases (pcs s) t c t') as [[-> U]|[N U]]; rewrite U in E; [now apply Hr|].
    now apply (wi_read _ _ _ I t').
  - intros t' p q E. destruct (upd_cases (pcs s) t c t') as [[-> U]|[N U]]; rewrite U in E.
    + destruct (Hc p q E) as (b & Ep & Hb & H). exists b. split; [exact Ep|]. split; [exact Hb|]. intro Hin.
      destruct (H Hin) as [H1 H2]. split; [exact H1|]. intros t2 Hu2. apply (H2 t2). now apply Hu.
    + destruct (wi_cas _ _ _ I t' p q E) as (b & Ep & Hb & H). exists b. split; [exact Ep|]. split; [exact Hb|]. intro Hin.
      destruct (H Hin) as [H1 H2]. split; [exact H1|]. intros t2 Hu2. apply (H2 t2). now apply Hu.
Qed.

Lemma lk_settled : forall s b q, lk s b q -> (forall t, ~ unlinked (pcs s t) b) -> nth_error (cmem s) b = Some (CNext q).
Proof. intros s b q [[t E]|[E _]] H; [exfalso; apply (H t); now exists q | exact E]. Qed.

Lemma chain_lk : forall s fr h b, chainR (lk s) h fr -> In b fr -> exists q, lk s b q.
Proof.
  intros s fr. induction fr as [|x fr IH]; intros h b C Hin; [destruct Hin|]. destruct C as [_ [q [L C]]].
  destruct Hin as [->|Hin]; eauto.
Qed.

Lemma w_cas : forall n fr s t b q,
  WInv n fr s -> pcs s t = ACas (At b) q -> chead s = At b ->
  exists fr', fr = b :: fr' /\
    WInv n fr' (CState (cmem s) q (upd (pcs s) t Idle) ((t, b) :: holders s) (S (pops s))).
Proof.
  intros n fr s t b q I Hpc Hh.
  pose proof (wi_chain _ _ _ I) as C. rewrite Hh in C.
  destruct (chainR_head _ _ _ C) as [fr' [q' [-> [Hl Ht]]]].
  exists fr'. split; [reflexivity|].
  destruct (wi_cas _ _ _ I t (At b) q Hpc) as [b' [Eb [Hb Hq]]]. injection Eb as <-.
  destruct (Hq (or_introl eq_refl)) as [Hm Hn].
  pose proof (lk_settled s b q' Hl Hn) as Hm'. rewrite Hm in Hm'. injection Hm' as <-.
  assert (Hp : forall x, In x (fr' ++ b :: held s) <-> In x ((b :: fr') ++ held s)).
  { intros x. simpl. rewrite !in_app_iff. simpl. tauto. }
  assert (U : forall t', upd (pcs s) t Idle t' = pcs s t' \/ (t' = t /\ upd (pcs s) t Idle t' = Idle)).
  { intro t'. destruct (upd_cases (pcs s) t Idle t') as [[-> U]|[N U]]; auto. }
  assert (ND : forall c, pcs s t = c -> c <> Idle -> ~ deallocating c) by (intros c <- _; rewrite Hpc; auto).
  constructor; unfold held in *; cbn [cmem chead pcs holders map snd].
  - apply (wi_len _ _ _ I).
  - eapply chainR_impl; [|exact Ht]. intros x y _ [[t' E]|[E H]].
    + left. exists t'. cbn [pcs]. rewrite upd_other; [exact E|]. intros ->. congruence.
    + right. split; [exact E|]. intros t' z E'. cbn [pcs] in E'. destruct (U t') as [U'|[_ U']]; rewrite U' in E'; [|discriminate].
      now apply (H t' z).
  - eapply Permutation_NoDup; [|apply (wi_nodup _ _ _ I)]. simpl. apply Permutation_middle.
  - intros x Hx. apply (wi_lt _ _ _ I). now apply Hp.
  - intros t' x E. destruct (U t') as [U'|[_ U']]; rewrite U' in E; [|discriminate].
    destruct (wi_xchg _ _ _ I t' x E) as [H1 H2]. split; [exact H1|]. intro Hx. apply H2. now apply Hp.
  - intros t1 t2 x E1 E2. destruct (U t1) as [U'|[_ U']]; rewrite U' in E1; [|discriminate].
    destruct (U t2) as [U2|[_ U2]]; rewrite U2 in E2; [|discriminate]. now apply (wi_xchg2 _ _ _ I t1 t2 x).
  - intros t' x y E. destruct (U t') as [U'|[_ U']]; rewrite U' in E; [|discriminate].
    destruct (wi_link _ _ _ I t' x y E) as [<-|Hx]; [|exact Hx]. exfalso. apply (Hn t'). now exists y.
  - intros t1 t2 x y z E1 E2. destruct (U t1) as [U'|[_ U']]; rewrite U' in E1; [|discriminate].
    destruct (U t2) as [U2|[_ U2]]; rewrite U2 in E2; [|discriminate]. now apply (wi_link2 _ _ _ I t1 t2 x y z).
  - intros x Hx. destruct (wi_all _ _ _ I x Hx) as [H|[t' H]]; [left; now apply Hp|]. right. exists t'.
    rewrite upd_other; [exact H|]. intros ->. congruence.
  - intros t' p E. destruct (U t') as [U'|[_ U']]; rewrite U' in E; [|discriminate]. now apply (wi_read _ _ _ I t').
  - intros t' p z E. destruct (U t') as [U'|[_ U']]; rewrite U' in E; [|discriminate].
    destruct (wi_cas _ _ _ I t' p z E) as [x [-> [Hx Hz]]]. exists x. split; [reflexivity|]. split; [exact Hx|]. intros Hin.
    destruct (Hz (or_intror Hin)) as [H1 H2]. split; [exact H1|]. intros t2 [y E2].
    destruct (U t2) as [U2|[_ U2]]; rewrite U2 in E2; [|discriminate]. apply (H2 t2). now exists y.
Qed.

Lemma w_free : forall n fr s t b,
  WInv n fr s -> pcs s t = Idle -> holds s t b = true ->
  WInv n fr (CState (cmem s) (chead s) (upd (pcs s) t (DXchg b)) (drop t b (holders s)) (pops s)).
Proof.
  intros n fr s t b I Hpc Hh. apply holds_in in Hh.
  pose proof (wi_nodup _ _ _ I) as Hnd. apply nodup_app_iff in Hnd. destruct Hnd as [N1 [N2 N3]].
  pose proof (drop_nodup t b _ N2 Hh) as P.
  assert (Hb : In b (held s)) by (apply in_map_iff; exists (t, b); auto).
  assert (N2' : NoDup (b :: map snd (drop t b (holders s)))) by (eapply Permutation_NoDup; eauto).
  apply NoDup_cons_iff in N2'. destruct N2' as [Nb N2'].
  assert (Hin : forall x, In x (map snd (drop t b (holders s))) -> In x (held s)).
  { intros x Hx. apply (Permutation_in _ (Permutation_sym P)). now right. }
  assert (Hin2 : forall x, In x (held s) -> x = b \/ In x (map snd (drop t b (holders s)))).
  { intros x Hx. apply (Permutation_in _ P) in Hx. destruct Hx; auto. }
  constructor; unfold held in *; cbn [cmem chead pcs holders].
  - apply (wi_len _ _ _ I).
  - eapply chainR_impl; [|apply (wi_chain _ _ _ I)]. intros x q _ [[t' E]|[E H]].
    + left. exists t'. cbn [pcs]. rewrite upd_other; [exact E|]. intros ->. congruence.
    + right. split; [exact E|]. intros t' q'. cbn [pcs].
      destruct (upd_cases (pcs s) t (DXchg b) t') as [[-> U]|[N U]]; rewrite U; [discriminate|apply H].
  - apply nodup_app_iff. repeat split; auto. intros x Hx Hy. apply (N3 x Hx). auto.
  - intros x Hx. apply (wi_lt _ _ _ I). unfold held. rewrite in_app_iff in *. destruct Hx; auto.
  - intros t' x E. destruct (upd_cases (pcs s) t (DXchg b) t') as [[-> U]|[N U]]; rewrite U in E.
    + injection E as <-. split; [apply (wi_lt _ _ _ I); apply in_app_iff; auto|].
      rewrite in_app_iff. intros [Hx|Hx]; [now apply (N3 b Hx)|auto].
    + destruct (wi_xchg _ _ _ I t' x E) as [H1 H2]. split; [exact H1|]. intros Hx. apply H2.
      unfold held. rewrite in_app_iff in *. destruct Hx; auto.
  - intros t1 t2 x E1 E2.
    destruct (upd_cases (pcs s) t (DXchg b) t1) as [[-> U]|[M U]]; rewrite U in E1;
    destruct (upd_cases (pcs s) t (DXchg b) t2) as [[-> U2]|[M2 U2]]; rewrite U2 in E2; auto.
    + injection E1 as <-. exfalso. apply (proj2 (wi_xchg _ _ _ I t2 b E2)). apply in_app_iff. auto.
    + injection E2 as <-. exfalso. apply (proj2 (wi_xchg _ _ _ I t1 b E1)). apply in_app_iff. auto.
    + now apply (wi_xchg2 _ _ _ I t1 t2 x).
  - intros t' x q E. destruct (upd_cases (pcs s) t (DXchg b) t') as [[-> U]|[M U]]; rewrite U in E; [discriminate|].
    now apply (wi_link _ _ _ I t' x q).
  - intros t1 t2 x q q' E1 E2.
    destruct (upd_cases (pcs s) t (DXchg b) t1) as [[-> U]|[M U]]; rewrite U in E1; [discriminate|].
    destruct (upd_cases (pcs s) t (DXchg b) t2) as [[-> U2]|[M2 U2]]; rewrite U2 in E2; [discriminate|].
    now apply (wi_link2 _ _ _ I t1 t2 x q q').
  - intros x Hx. destruct (wi_all _ _ _ I x Hx) as [H|[t' H]].
    + unfold held in H. rewrite in_app_iff in *. destruct H as [H|H]; [left; auto|].
      destruct (Hin2 x H) as [->|H']; [right; exists t; apply upd_same|left; auto].
    + right. exists t'. rewrite upd_other; [exact H|]. intros ->. congruence.
  - intros t' p E. destruct (upd_cases (pcs s) t (DXchg b) t') as [[-> U]|[M U]]; rewrite U in E; [discriminate|].
    now apply (wi_read _ _ _ I t').
  - intros t' p q E. destruct (upd_cases (pcs s) t (DXchg b) t') as [[-> U]|[M U]]; rewrite U in E; [discriminate|].
    destruct (wi_cas _ _ _ I t' p q E) as [x [-> [Hx Hz]]]. exists x. split; [reflexivity|]. split; [exact Hx|]. intro Hi.
    destruct (Hz Hi) as [H1 H2]. split; [exact H1|]. intros t2 [y E2].
    destruct (upd_cases (pcs s) t (DXchg b) t2) as [[-> U2]|[M2 U2]]; rewrite U2 in E2; [discriminate|]. apply (H2 t2). now exists y.
Qed.

Lemma w_xchg : forall n fr s t b,
  WInv n fr s -> pcs s t = DXchg b -> (forall t', ~ refers (pcs s t') b) ->
  WInv n (b :: fr) (CState (cmem s) (At b) (upd (pcs s) t (DLink b (chead s))) (holders s) (pops s)).
Proof.
  intros n fr s t b I Hpc NR.
  destruct (wi_xchg _ _ _ I t b Hpc) as [Hb Hnin]. rewrite in_app_iff in Hnin.
  constructor; unfold held in *; cbn [cmem chead pcs holders].
  - apply (wi_len _ _ _ I).
  - split; [reflexivity|]. exists (chead s). split; [left; exists t; cbn [pcs]; apply upd_same|].
    eapply chainR_impl; [|apply (wi_chain _ _ _ I)]. intros x q Hx [[t' E]|[E H]].
    + left. exists t'. cbn [pcs]. rewrite upd_other; [exact E|]. intros ->. congruence.
    + right. split; [exact E|]. intros t' q'. cbn [pcs].
      destruct (upd_cases (pcs s) t (DLink b (chead s)) t') as [[-> U]|[N U]]; rewrite U; [|apply H].
      intros C. injection C as <- _. tauto.
  - simpl. apply NoDup_cons_iff. split; [rewrite in_app_iff; exact Hnin|]. apply (wi_nodup _ _ _ I).
  - intros x [<-|Hx]; [exact Hb|]. now apply (wi_lt _ _ _ I).
  - intros t' x E. destruct (upd_cases (pcs s) t (DLink b (chead s)) t') as [[-> U]|[N U]]; rewrite U in E; [discriminate|].
    destruct (wi_xchg _ _ _ I t' x E) as [H1 H2]. split; [exact H1|]. intros [<-|Hx]; [|now apply H2].
    apply N. now apply (wi_xchg2 _ _ _ I t' t b).
  - intros t1 t2 x E1 E2.
    destruct (upd_cases (pcs s) t (DLink b (chead s)) t1) as [[-> U]|[M U]]; rewrite U in E1; [discriminate|].
    destruct (upd_cases (pcs s) t (DLink b (chead s)) t2) as [[-> U2]|[M2 U2]]; rewrite U2 in E2; [discriminate|].
    now apply (wi_xchg2 _ _ _ I t1 t2 x).
  - intros t' x q E. destruct (upd_cases (pcs s) t (DLink b (chead s)) t') as [[-> U]|[N U]]; rewrite U in E.
    + injection E as <- _. now left.
    + right. now apply (wi_link _ _ _ I t' x q).
  - intros t1 t2 x q q' E1 E2.
    destruct (upd_cases (pcs s) t (DLink b (chead s)) t1) as [[-> U]|[M U]]; rewrite U in E1;
    destruct (upd_cases (pcs s) t (DLink b (chead s)) t2) as [[-> U2]|[M2 U2]]; rewrite U2 in E2; auto.
    + injection E1 as <- _. exfalso. pose proof (wi_link _ _ _ I t2 _ _ E2). tauto.
    + injection E2 as <- _. exfalso. pose proof (wi_link _ _ _ I t1 _ _ E1). tauto.
    + now apply (wi_link2 _ _ _ I t1 t2 x q q').
  - intros x Hx. destruct (wi_all _ _ _ I x Hx) as [H|[t' H]]; [left; now right|].
    destruct (Nat.eq_dec t' t) as [->|N].
    + left. left. congruence.
    + right. exists t'. now rewrite upd_other.
  - intros t' p E. destruct (upd_cases (pcs s) t (DLink b (chead s)) t') as [[-> U]|[M U]]; rewrite U in E; [discriminate|].
    now apply (wi_read _ _ _ I t').
  - intros t' p q E. destruct (upd_cases (pcs s) t (DLink b (chead s)) t') as [[-> U]|[M U]]; rewrite U in E; [discriminate|].
    destruct (wi_cas _ _ _ I t' p q E) as [x [-> [Hx Hz]]]. exists x. split; [reflexivity|]. split; [exact Hx|].
    assert (x <> b) as Nx by (intros ->; apply (NR t'); right; eauto).
    intros [Eb|Hi]; [congruence|]. destruct (Hz Hi) as [H1 H2]. split; [exact H1|]. intros t2 [y E2].
    destruct (upd_cases (pcs s) t (DLink b (chead s)) t2) as [[-> U2]|[M2 U2]]; rewrite U2 in E2.
    + injection E2 as E2 _. congruence.
    + apply (H2 t2). now exists y.
Qed.

Lemma w_link : forall n fr s t b q,
  WInv n fr s -> pcs s t = DLink b q ->
  (b < length (cmem s))%nat /\
  WInv n fr (CState (replace_nth b (CNext q) (cmem s)) (chead s) (upd (pcs s) t Idle) (holders s) (pops s)).
Proof.
  intros n fr s t b q I Hpc.
  pose proof (wi_link _ _ _ I t b q Hpc) as Hin.
  assert (Hb : (b < length (cmem s))%nat).
  { rewrite (wi_len _ _ _ I). apply (wi_lt _ _ _ I). apply in_app_iff. now left. }
  split; [exact Hb|].
  constructor; unfold held in *; cbn [cmem chead pcs holders].
  - rewrite replace_nth_length. apply (wi_len _ _ _ I).
  - eapply chainR_impl; [|apply (wi_chain _ _ _ I)]. intros x y Hx L.
    destruct (Nat.eq_dec x b) as [->|Nx].
    + assert (y = q) as ->.
      { destruct L as [[t' E]|[_ H]]; [|exfalso; now apply (H t q)].
        pose proof (wi_link2 _ _ _ I t' t b y q E Hpc). subst t'. congruence. }
      right. split; cbn [cmem pcs].
      * rewrite replace_nth_error by exact Hb. now rewrite Nat.eqb_refl.
      * intros t' q' E. destruct (upd_cases (pcs s) t Idle t') as [[-> U]|[N U]]; rewrite U in E; [discriminate|].
        apply N. now apply (wi_link2 _ _ _ I t' t b q' q).
    + destruct L as [[t' E]|[E H]].
      * left. exists t'. cbn [pcs]. rewrite upd_other; [exact E|]. intros ->. congruence.
      * right. split; cbn [cmem pcs].
        -- rewrite replace_nth_error by exact Hb. destruct (Nat.eqb_spec x b); [congruence|exact E].
        -- intros t' q' C. destruct (upd_cases (pcs s) t Idle t') as [[-> U]|[N U]]; rewrite U in C; [discriminate|].
           now apply (H t' q').
  - apply (wi_nodup _ _ _ I).
  - apply (wi_lt _ _ _ I).
  - intros t' x E. destruct (upd_cases (pcs s) t Idle t') as [[-> U]|[N U]]; rewrite U in E; [discriminate|].
    now apply (wi_xchg _ _ _ I t').
  - intros t1 t2 x E1 E2.
    destruct (upd_cases (pcs s) t Idle t1) as [[-> U]|[M U]]; rewrite U in E1; [discriminate|].
    destruct (upd_cases (pcs s) t Idle t2) as [[-> U2]|[M2 U2]]; rewrite U2 in E2; [discriminate|].
    now apply (wi_xchg2 _ _ _ I t1 t2 x).
  - intros t' x y E. destruct (upd_cases (pcs s) t Idle t') as [[-> U]|[N U]]; rewrite U in E; [discriminate|].
    now apply (wi_link _ _ _ I t' x y).
  - intros t1 t2 x y y' E1 E2.
    destruct (upd_cases (pcs s) t Idle t1) as [[-> U]|[M U]]; rewrite U in E1; [discriminate|].
    destruct (upd_cases (pcs s) t Idle t2) as [[-> U2]|[M2 U2]]; rewrite U2 in E2; [discriminate|].
    now apply (wi_link2 _ _ _ I t1 t2 x y y').
  - intros x Hx. destruct (wi_all _ _ _ I x Hx) as [H|[t' H]]; [now left|right].
    exists t'. rewrite upd_other; [exact H|]. intros ->. congruence.
  - intros t' p E. destruct (upd_cases (pcs s) t Idle t') as [[-> U]|[M U]]; rewrite U in E; [discriminate|].
    now apply (wi_read _ _ _ I t').
  - intros t' p y E. destruct (upd_cases (pcs s) t Idle t') as [[-> U]|[M U]]; rewrite U in E; [discriminate|].
    destruct (wi_cas _ _ _ I t' p y E) as [x [-> [Hx Hz]]]. exists x. split; [reflexivity|]. split; [exact Hx|]. intro Hi.
    destruct (Hz Hi) as [H1 H2]. split.
    + rewrite replace_nth_error by exact Hb. destruct (Nat.eqb_spec x b) as [->|]; [|exact H1].
      exfalso. apply (H2 t). now exists q.
    + intros t2 [z E2]. destruct (upd_cases (pcs s) t Idle t2) as [[-> U2]|[M2 U2]]; rewrite U2 in E2; [discriminate|].
      apply (H2 t2). now exists z.
Qed.

Lemma w_write : forall n fr s t b v,
  WInv n fr s -> holds s t b = true -> (b < length (cmem s))%nat ->
  WInv n fr (CState (replace_nth b (CData v) (cmem s)) (chead s) (pcs s) (holders s) (pops s)).
Proof.
  intros n fr s t b v I Hh Hb. apply holds_in in Hh.
  assert (Hin : In b (held s)) by (apply in_map_iff; exists (t, b); auto).
  assert (Hfr : forall x, In x fr -> x <> b).
  { intros x Hx ->. pose proof (wi_nodup _ _ _ I) as Hnd. apply nodup_app_iff in Hnd. destruct Hnd as [_ [_ N3]].
    now apply (N3 b). }
  destruct I. constructor; unfold held in *; cbn [cmem chead pcs holders]; auto.
  - now rewrite replace_nth_length.
  - eapply chainR_impl; [|exact wi_chain0]. intros x q Hx [[t' E]|[E H]]; [left; eauto|right].
    split; cbn [cmem pcs]; auto. rewrite replace_nth_error by exact Hb.
    destruct (Nat.eqb_spec x b); [exfalso; now apply (Hfr x)|exact E].
  - intros t' p q E. destruct (wi_cas0 t' p q E) as [x [-> [Hx Hq]]]. exists x. split; [reflexivity|]. split; [exact Hx|].
    intros Hy. destruct (Hq Hy) as [H1 H2]. split; [|exact H2].
    rewrite replace_nth_error by exact Hb. destruct (Nat.eqb_spec x b); [exfalso; now apply (Hfr x)|auto].
Qed.

(** One step: the invariant, and the free list shrinks only by a compare-exchange. *)
Lemma w_step : forall n fr s l, WInv n fr s -> hazard_rule l s ->
  cstep l s <> Crash /\
  forall s', cstep l s = Step s' ->
    exists fr', WInv n fr' s' /\ (incl fr fr' \/ exists t b q, pcs s t = ACas (At b) q /\ l = LCas t false /\ pcs s' t = Idle).
Proof.
  intros n fr s l I P. destruct l as [t|t|t|t sp|t b|t|t|t b v]; unfold hazard_rule in P; cbn [no_reuse_rule settled_read_rule] in P;
    destruct P as [PX P]; simpl cstep.
  - destruct (pcs s t) eqn:E; split; try discriminate. intros s' H. injection H as <-. exists fr.
    split; [|left; apply incl_refl]. apply w_set_pc; auto; try discriminate. rewrite E; auto.
  - destruct (pcs s t) eqn:E; split; try discriminate. intros s' H. injection H as <-. exists fr.
    split; [|left; apply incl_refl]. apply w_set_pc; auto.
    + rewrite E; auto.
    + destruct (chead s); simpl; auto.
    + intros p Hp. pose proof (wi_chain _ _ _ I) as C. destruct fr as [|b fr']; simpl in C.
      * rewrite C in Hp. discriminate.
      * destruct C as [C _]. rewrite C in Hp. injection Hp as <-. exists b. split; [reflexivity|].
        apply (wi_lt _ _ _ I). now left.
    + intros p q Hp. destruct (chead s); discriminate.
  - destruct (pcs s t) as [| |p| | |] eqn:E; try (split; discriminate).
    destruct (wi_read _ _ _ I t p E) as [b [-> Hb]].
    destruct (nth_error (cmem s) b) as [c|] eqn:En; [|apply nth_error_None in En; rewrite (wi_len _ _ _ I) in En; lia].
    split; [discriminate|]. intros s' H. injection H as <-. exists fr. split; [|left; apply incl_refl].
    apply w_set_pc; auto; [rewrite E; auto|discriminate|].
    intros p q H. injection H as <- <-. exists b. split; [reflexivity|]. split; [exact Hb|]. intros Hin.
    split; [|apply (P b eq_refl)].
    destruct (chain_lk s fr (chead s) b (wi_chain _ _ _ I) Hin) as [q' L].
    pose proof (lk_settled s b q' L (P b eq_refl)) as Hq. rewrite En in Hq. injection Hq as ->. exact En.
  - destruct (pcs s t) as [| | |p q| |] eqn:E; try (split; discriminate).
    destruct (wi_cas _ _ _ I t p q E) as [b [-> [Hb Hq]]].
    destruct (ptr_eqb (chead s) (At b) && negb sp) eqn:Ec; (split; [discriminate|]); intros s' H; injection H as <-.
    + apply andb_true_iff in Ec. destruct Ec as [Ec Es]. apply ptr_eqb_true in Ec. apply negb_true_iff in Es. subst sp.
      destruct (w_cas n fr s t b q I E Ec) as [fr' [_ I']]. exists fr'. split; [exact I'|]. right. exists t, b, q.
      split; [exact E|]. split; [reflexivity|]. cbn [pcs]. apply upd_same.
    + exists fr. split; [|left; apply incl_refl]. apply w_set_pc; auto; try discriminate. rewrite E; auto.
  - destruct (pcs s t) eqn:E; try (split; discriminate). destruct (holds s t b) eqn:Eh; (split; [discriminate|]); try discriminate.
    intros s' H. injection H as <-. exists fr. split; [now apply w_free|left; apply incl_refl].
  - destruct (pcs s t) eqn:E; try (split; discriminate). split; [discriminate|]. intros s' H. injection H as <-.
    eexists. split; [apply w_xchg; [exact I|exact E|apply (PX b eq_refl)]|]. left. apply incl_tl, incl_refl.
  - destruct (pcs s t) eqn:E; try (split; discriminate). destruct (w_link n fr s t b old I E) as [Hb I'].
    apply Nat.ltb_lt in Hb. rewrite Hb. split; [discriminate|]. intros s' H. injection H as <-.
    exists fr. split; [exact I'|left; apply incl_refl].
  - destruct (pcs s t) eqn:E; try (split; discriminate).
    destruct (holds s t b) eqn:Eh; simpl; [|split; discriminate].
    destruct (Nat.ltb_spec b (length (cmem s))) as [Hb|Hb]; (split; [discriminate|]); try discriminate.
    intros s' H. injection H as <-. exists fr. split; [eapply w_write; eauto|left; apply incl_refl].
Qed.

Lemma w_give : forall n fr s t t' b, WInv n fr s -> holds s t b = true ->
  WInv n fr (CState (cmem s) (chead s) (pcs s) ((t', b) :: drop t b (holders s)) (pops s)).
Proof.
  intros n fr s t t' b I Hh. apply holds_in in Hh.
  pose proof (wi_nodup _ _ _ I) as Hnd. apply nodup_app_iff in Hnd. destruct Hnd as [N1 [N2 N3]].
  pose proof (drop_nodup t b _ N2 Hh) as P.
  assert (P2 : Permutation (fr ++ map snd (holders s)) (fr ++ map snd ((t', b) :: drop t b (holders s)))).
  { apply Permutation_app_head. exact P. }
  destruct I. constructor; unfold held in *; cbn [cmem chead pcs holders]; auto.
  - eapply Permutation_NoDup; eauto.
  - intros x Hx. apply wi_lt0. eapply Permutation_in; [apply Permutation_sym; exact P2|exact Hx].
  - intros t0 x E. destruct (wi_xchg0 t0 x E) as [H1 H2]. split; [exact H1|]. intro Hx. apply H2.
    eapply Permutation_in; [apply Permutation_sym; exact P2|exact Hx].
  - intros x Hx. destruct (wi_all0 x Hx) as [H|H]; [left|now right]. eapply Permutation_in; eauto.
Qed.

Lemma w_happens : forall n fr s e, WInv n fr s -> allowed hazard_rule e s ->
  happens e s <> Crash /\ forall s', happens e s = Step s' ->
    exists fr', WInv n fr' s' /\ (incl fr fr' \/ exists t b q, pcs s t = ACas (At b) q /\ e = Do (LCas t false) /\ pcs s' t = Idle).
Proof.
  intros n fr s e I P. destruct e as [l|t t' b]; cbn [happens allowed] in *.
  - destruct (w_step n fr s l I P) as [H1 H2]. split; [exact H1|]. intros s' E. destruct (H2 s' E) as (fr' & I' & H).
    exists fr'. split; [exact I'|]. destruct H as [H|(t & b & q & Ha & -> & Hb)]; [now left|right; eauto 6].
  - destruct (holds s t b) eqn:Eh; (split; [discriminate|]); [|discriminate]. intros s' E. injection E as <-.
    exists fr. split; [now apply w_give|left; apply incl_refl].
Qed.

Lemma hazard_inv : forall n s, (0 < n)%nat -> reachable_with hazard_rule n s -> exists fr, WInv n fr s.
Proof.
  intros n s Hn [ls R]. remember (cinit n) as s0. induction R as [s|s ls s1 e s2 R IH P E]; subst.
  - exists (seq 0 n). now apply winit.
  - destruct (IH eq_refl) as [fr I]. destruct (w_happens n fr s1 e I P) as [_ H]. destruct (H _ E) as [fr' [I' _]]. eauto.
Qed.

(** ** The other rules *)

Definition one_inv (n : nat) (fr : list nat) (s : cstate) : Prop :=
  WInv n fr s /\ (forall t t', allocating (pcs s t) -> allocating (pcs s t') -> t = t') /\
  (forall t b, refers (pcs s t) b -> In b fr).

Lemma one_hazard : forall n fr s l, one_inv n fr s -> one_allocator_rule l s -> hazard_rule l s.
Proof.
  intros n fr s l (I & _ & Rf) P. destruct l as [t|t|t|t sp|t b|t|t|t b v]; split; cbn [no_reuse_rule settled_read_rule one_allocator_rule] in *; auto.
  intros b E t' Hr. destruct (wi_xchg _ _ _ I t b E) as [_ H]. apply H. apply in_app_iff. left. now apply (Rf t').
Qed.

Lemma refers_allocating : forall c b, refers c b -> allocating c.
Proof. intros c b [->|[q ->]]; exact Logic.I. Qed.

Lemma cstep_pc : forall l s s', cstep l s = Step s' ->
  (forall t, t <> thread_of l -> pcs s' t = pcs s t) /\
  (allocating (pcs s' (thread_of l)) -> allocating (pcs s (thread_of l)) \/ exists t, l = LStartAlloc t).
Proof.
  intros l s s' E.
  destruct l as [t|t|t|t sp|t b|t|t|t b v]; cbn [thread_of]; unfold cstep in E; destruct (pcs s t) as [| |p|p q|x|x old] eqn:Ep;
    try discriminate E.
  - injection E as <-. split; [intros; now apply upd_other|]. intros _. right. eauto.
  - injection E as <-. split; [intros; now apply upd_other|]. intros _. left. exact Logic.I.
  - destruct p; try discriminate E. destruct (nth_error (cmem s) b); [|discriminate E]. injection E as <-.
    split; [intros; now apply upd_other|]. intros _. left. exact Logic.I.
  - destruct p; try discriminate E. destruct (_ && _); injection E as <-; (split; [intros; now apply upd_other|]);
      intros _; left; exact Logic.I.
  - destruct (holds s t b); [|discriminate E]. injection E as <-. split; [intros; now apply upd_other|]. cbn [pcs].
    rewrite upd_same. intros [].
  - injection E as <-. split; [intros; now apply upd_other|]. cbn [pcs]. rewrite upd_same. intros [].
  - destruct (_ <? _)%nat; [|discriminate E]. injection E as <-. split; [intros; now apply upd_other|]. cbn [pcs].
    rewrite upd_same. intros [].
  - destruct (_ && _); [|discriminate E]. injection E as <-. split; [reflexivity|]. cbn [pcs]. rewrite Ep. intros [].
Qed.

(** What a thread refers to after a step: what it referred to before, or the head that it has just loaded. *)
Lemma cstep_refers : forall l s s' t b, cstep l s = Step s' -> refers (pcs s' t) b -> refers (pcs s t) b \/ chead s = At b.
Proof.
  intros l s s' t b E R. destruct (Nat.eq_dec t (thread_of l)) as [->|N].
  2:{ left. destruct (cstep_pc l s s' E) as [H _]. now rewrite <- (H t N). }
  destruct l as [t|t|t|t sp|t x|t|t|t x v]; cbn [thread_of] in *; unfold cstep in E; destruct (pcs s t) as [| |p|p q|y|y old] eqn:Ep;
    try discriminate E.
  - injection E as <-. cbn [set_pc pcs] in R. rewrite upd_same in R. destruct R as [R|[q R]]; discriminate R.
  - injection E as <-. cbn [set_pc pcs] in R. rewrite upd_same in R. right.
    destruct R as [R|[q R]]; destruct (chead s); try discriminate R. injection R as <-. reflexivity.
  - destruct p as [|a|]; try discriminate E. destruct (nth_error (cmem s) a); [|discriminate E]. injection E as <-.
    cbn [set_pc pcs] in R. rewrite upd_same in R. left. destruct R as [R|[q R]]; [discriminate R|]. injection R as <- _. now left.
  - destruct p as [|a|]; try discriminate E. destruct (_ && _); injection E as <-; cbn [set_pc pcs] in R; rewrite upd_same in R;
      destruct R as [R|[z R]]; discriminate R.
  - destruct (holds s t x); [|discriminate E]. injection E as <-. cbn [pcs] in R. rewrite upd_same in R.
    destruct R as [R|[z R]]; discriminate R.
  - injection E as <-. cbn [pcs] in R. rewrite upd_same in R. destruct R as [R|[z R]]; discriminate R.
  - destruct (_ <? _)%nat; [|discriminate E]. injection E as <-. cbn [pcs] in R. rewrite upd_same in R.
    destruct R as [R|[z R]]; discriminate R.
  - destruct (_ && _); [|discriminate E]. injection E as <-. cbn [pcs] in R. rewrite Ep in R. destruct R as [R|[z R]]; discriminate R.
Qed.

Lemma one_step_do : forall n fr s l s', one_inv n fr s -> one_allocator_rule l s -> cstep l s = Step s' -> exists fr', one_inv n fr' s'.
Proof.
  intros n fr s l s' I P E. pose proof (one_hazard n fr s l I P) as H. destruct I as (I & A & Rf).
  destruct (w_step n fr s l I H) as [_ W]. destruct (W s' E) as (fr' & I' & Hf). exists fr'.
  destruct (cstep_pc l s s' E) as [K1 K2].
  assert (A' : forall t t', allocating (pcs s' t) -> allocating (pcs s' t') -> t = t').
  { assert (B : forall t, allocating (pcs s' t) -> allocating (pcs s t) \/
                  (t = thread_of l /\ forall t2, ~ allocating (pcs s t2))).
    { intros t At. destruct (Nat.eq_dec t (thread_of l)) as [->|N]; [|left; now rewrite <- (K1 t N)].
      destruct (K2 At) as [K|[t0 ->]]; [now left|]. right. split; [reflexivity|]. exact P. }
    intros t t' At At'. destruct (B t At) as [B1|[B1 B1']], (B t' At') as [B2|[B2 B2']]; auto.
    - exfalso. now apply (B2' t).
    - exfalso. now apply (B1' t').
    - congruence. }
  split; [exact I'|]. split; [exact A'|].
  intros t b R. destruct Hf as [Hf|(t0 & b0 & q0 & E0 & -> & Ei)].
  - apply Hf. destruct (cstep_refers l s s' t b E R) as [R'|Hh]; [now apply (Rf t)|].
    pose proof (wi_chain _ _ _ I) as C. destruct fr as [|x fr0]; simpl in C; [congruence|]. destruct C as [C _]. left. congruence.
  - exfalso. destruct (Nat.eq_dec t t0) as [->|N].
    + rewrite Ei in R. destruct R as [R|[q R]]; discriminate R.
    + apply N. apply A; [|rewrite E0; exact Logic.I]. rewrite <- (K1 t N). now apply refers_allocating with b.
Qed.

Lemma one_step : forall n fr s e s', one_inv n fr s -> allowed one_allocator_rule e s -> happens e s = Step s' ->
  allowed hazard_rule e s /\ exists fr', one_inv n fr' s'.
Proof.
  intros n fr s [l|t t' b] s' I P E; cbn [allowed happens] in *.
  - split; [eapply one_hazard; eauto|eapply one_step_do; eauto].
  - split; [exact Logic.I|]. destruct (holds s t b) eqn:Eh; [|discriminate E]. injection E as <-. exists fr.
    destruct I as (I & A & R). split; [now apply w_give|]. split; [exact A|exact R].
Qed.

Lemma one_reach : forall n s, (0 < n)%nat -> reachable_with one_allocator_rule n s ->
  (exists fr, one_inv n fr s) /\ reachable_with hazard_rule n s.
Proof.
  intros n s Hn [ls R]. remember (cinit n) as s0. induction R as [s|s ls s1 e s2 R IH P E]; subst.
  - split; [|exists []; constructor]. exists (seq 0 n). split; [now apply winit|]. split.
    + intros t t' At. destruct At.
    + intros t b [C|[q C]]; discriminate C.
  - destruct (IH eq_refl) as [[fr I] [ls' R']]. split.
    + eapply one_step; eauto.
    + exists (ls' ++ [e]). econstructor; eauto. eapply one_step; eauto.
Qed.

(** Rule 3 keeps rule 2. *)
Definition main_only (s : cstate) : Prop := forall t, allocating (pcs s t) -> t = 0%nat.

Lemma irq_one : forall l s s', main_only s -> handlers_free_rule l s -> cstep l s = Step s' -> one_allocator_rule l s /\ main_only s'.
Proof.
  intros l s s' M [N A] E. split.
  - destruct l as [t|t|t|t sp|t b|t|t|t b v]; cbn [one_allocator_rule]; auto.
    + subst t. intros t At. assert (t = 0%nat) as -> by now apply M. unfold cstep in E. destruct (pcs s 0); try discriminate E. exact At.
    + intros t' b [q C]. unfold cstep in E. destruct (pcs s t) as [| |p| | |] eqn:Ep; try discriminate E.
      assert (t = 0%nat) as -> by (apply M; rewrite Ep; exact Logic.I).
      destruct t' as [|t']; [congruence|]. rewrite (N (S t')) in C by (cbn [thread_of]; lia). discriminate C.
  - intros t At. destruct (cstep_pc l s s' E) as [K1 K2]. destruct (Nat.eq_dec t (thread_of l)) as [->|Ne].
    + destruct (K2 At) as [K|[t0 ->]]; [now apply M|]. exact A.
    + apply M. now rewrite <- (K1 t Ne).
Qed.

Lemma irq_reach : forall n s, (0 < n)%nat -> reachable_with handlers_free_rule n s ->
  main_only s /\ reachable_with one_allocator_rule n s.
Proof.
  intros n s Hn [ls R]. remember (cinit n) as s0. induction R as [s|s ls s1 e s2 R IH P E]; subst.
  - split; [intros t []|exists []; constructor].
  - destruct (IH eq_refl) as [M [ls' R']]. destruct e as [l|t t' b].
    + destruct (irq_one l s1 s2 M P E) as [P1 M1]. split; [exact M1|]. exists (ls' ++ [Do l]). econstructor; eauto.
    + split; [|exists (ls' ++ [Give t t' b]); econstructor; eauto; exact Logic.I].
      cbn [happens] in E. destruct (holds s1 t b); [|discriminate E]. injection E as <-. exact M.
Qed.

(** The phase discipline of C51 keeps rule 1; rule 4 keeps the phase discipline. *)
Definition one_kind (s : cstate) : Prop := forall t t', allocating (pcs s t) -> deallocating (pcs s t') -> False.

Lemma cstep_dealloc : forall l s s', cstep l s = Step s' ->
  deallocating (pcs s' (thread_of l)) -> deallocating (pcs s (thread_of l)) \/ exists t b, l = LStartFree t b.
Proof.
  intros l s s' E.
  destruct l as [t|t|t|t sp|t b|t|t|t b v]; cbn [thread_of]; unfold cstep in E; destruct (pcs s t) as [| |p|p q|x|x old] eqn:Ep;
    try discriminate E; try (intros _; right; eauto; fail); try (intros _; left; exact Logic.I).
  - injection E as <-. cbn [set_pc pcs]. rewrite upd_same. intros [].
  - injection E as <-. cbn [set_pc pcs]. rewrite upd_same. destruct (chead s); intros [].
  - destruct p; try discriminate E. destruct (nth_error (cmem s) b); [|discriminate E]. injection E as <-.
    cbn [set_pc pcs]. rewrite upd_same. intros [].
  - destruct p; try discriminate E. destruct (_ && _); injection E as <-; cbn [set_pc pcs]; rewrite upd_same; intros [].
  - destruct (_ && _); [|discriminate E]. injection E as <-. cbn [pcs]. rewrite Ep. intros [].
Qed.

Lemma phase_step : forall s l s', one_kind s -> phase_ok l s -> cstep l s = Step s' -> hazard_rule l s /\ one_kind s'.
Proof.
  intros s l s' K P E. split.
  - split; destruct l as [t|t|t|t sp|t b|t|t|t b v]; cbn [no_reuse_rule settled_read_rule]; auto.
    + intros b Ex t' R. apply (K t' t); [now apply refers_allocating with b|rewrite Ex; exact Logic.I].
    + intros b Ex t' [q U]. apply (K t t'); [rewrite Ex|rewrite U]; exact Logic.I.
  - destruct (cstep_pc l s s' E) as [K1 K2]. pose proof (cstep_dealloc l s s' E) as K3. intros t t' A D.
    assert (HA : allocating (pcs s t) \/ t = thread_of l /\ exists t, l = LStartAlloc t).
    { destruct (Nat.eq_dec t (thread_of l)) as [->|N]; [|left; now rewrite <- (K1 t N)]. destruct (K2 A); auto. }
    assert (HD : deallocating (pcs s t') \/ t' = thread_of l /\ exists t b, l = LStartFree t b).
    { destruct (Nat.eq_dec t' (thread_of l)) as [->|N]; [|left; now rewrite <- (K1 t' N)]. destruct (K3 D); auto. }
    destruct HA as [HA|[_ [a ->]]], HD as [HD|[_ (d & b & Ed)]].
    + exact (K t t' HA HD).
    + subst l. exact (P t HA).
    + exact (P t' HD).
    + discriminate Ed.
Qed.

Lemma phase_reach : forall n s, reachable_with phase_ok n s -> one_kind s /\ reachable_with hazard_rule n s.
Proof.
  intros n s [ls R]. remember (cinit n) as s0. induction R as [s|s ls s1 e s2 R IH P E]; subst.
  - split; [intros t t' []|exists []; constructor].
  - destruct (IH eq_refl) as [M [ls' R']]. destruct e as [l|t t' b].
    + destruct (phase_step s1 l s2 M P E) as [P1 M1]. split; [exact M1|]. exists (ls' ++ [Do l]). econstructor; eauto.
    + split; [|exists (ls' ++ [Give t t' b]); econstructor; eauto; exact Logic.I].
      cbn [happens] in E. destruct (holds s1 t b); [|discriminate E]. injection E as <-. exact M.
Qed.

Lemma serial_phase : forall l s, serial_rule l s -> phase_ok l s.
Proof. intros [t|t|t|t sp|t b|t|t|t b v] s H; cbn [serial_rule phase_ok] in *; auto; intro t'; rewrite (H t'); intros []. Qed.

Lemma run_impl : forall (ok ok' : rule), (forall l s, ok l s -> ok' l s) -> forall s es s', run_with ok s es s' -> run_with ok' s es s'.
Proof.
  intros ok ok' H s es s' R. induction R as [s|s ls s1 e s2 R IH P E]; [constructor|]. econstructor; eauto.
  destruct e; cbn [allowed] in *; auto.
Qed.

(** With calls one at a time, at most one thread is inside. *)
Lemma cstep_busy : forall l s s', cstep l s = Step s' -> pcs s' (thread_of l) <> Idle ->
  pcs s (thread_of l) <> Idle \/ (exists t, l = LStartAlloc t) \/ exists t b, l = LStartFree t b.
Proof.
  intros l s s' E H.
  destruct l as [t|t|t|t sp|t b|t|t|t b v]; cbn [thread_of] in *; unfold cstep in E; destruct (pcs s t) as [| |p|p q|x|x old] eqn:Ep;
    try discriminate E; eauto 6; try (left; discriminate).
  destruct (_ && _); [|discriminate E]. injection E as <-. cbn [pcs] in H. congruence.
Qed.

Definition one_busy (s : cstate) : Prop := forall t t', pcs s t <> Idle -> pcs s t' <> Idle -> t = t'.

Lemma serial_reach : forall n s, reachable_with serial_rule n s -> one_busy s /\ reachable_with phase_ok n s.
Proof.
  intros n s [ls R]. split; [|exists ls; eapply run_impl; [apply serial_phase|exact R]].
  remember (cinit n) as s0. induction R as [s|s ls s1 e s2 R IH P E]; subst.
  - intros t t' C. now destruct C.
  - specialize (IH eq_refl). destruct e as [l|t t' b]; cbn [happens allowed] in *.
    + destruct (cstep_pc l s1 s2 E) as [K1 _]. pose proof (cstep_busy l s1 s2 E) as K2.
      assert (B : forall t, pcs s2 t <> Idle -> pcs s1 t <> Idle \/ (t = thread_of l /\ forall t2, pcs s1 t2 = Idle)).
      { intros t B. destruct (Nat.eq_dec t (thread_of l)) as [->|N]; [|left; now rewrite <- (K1 t N)].
        destruct (K2 B) as [K|[[x ->]|(x & y & ->)]]; auto. }
      intros t t' At At'. destruct (B t At) as [B1|[B1 B1']], (B t' At') as [B2|[B2 B2']]; auto.
      congruence.
    + destruct (holds s1 t b); [|discriminate E]. injection E as <-. exact IH.
Qed.

(** ** Checking a given execution *)
Fixpoint erun (es : list event) (s : cstate) : effect :=
  match es with [] => Step s | e :: es' => match happens e s with Step s' => erun es' s' | r => r end end.

Lemma run_cons : forall ok s e s1 es s2, allowed ok e s -> happens e s = Step s1 -> run_with ok s1 es s2 -> run_with ok s (e :: es) s2.
Proof.
  intros ok s e s1 es s2 A E R. induction R as [x|x ls x1 l x2 R IH P El].
  - apply (run_snoc ok s [] s e x); [constructor|exact A|exact E].
  - change (e :: ls ++ [l]) with ((e :: ls) ++ [l]). econstructor; eauto.
Qed.

(** [k] bounds the threads that take part; the rule is checked by [okb]. *)
Fixpoint ewith (okb : label -> cstate -> bool) (es : list event) (s : cstate) : effect :=
  match es with
  | [] => Step s
  | e :: es' =>
      if match e with Do l => okb l s | _ => true end
      then match happens e s with Step s' => ewith okb es' s' | r => r end else Disabled
  end.

Definition idle_from (k : nat) (s : cstate) : Prop := forall t, (k <= t)%nat -> pcs s t = Idle.

Lemma ewith_run : forall (ok : rule) okb k,
  (forall l s, idle_from k s -> okb l s = true -> ok l s) ->
  forall es s s', idle_from k s -> forallb (fun e => match e with Do l => thread_of l <? k | _ => true end)%nat es = true ->
    ewith okb es s = Step s' -> run_with ok s es s' /\ idle_from k s'.
Proof.
  intros ok okb k H es. induction es as [|e es IH]; intros s s' Hi Ht E; cbn [ewith forallb] in *.
  - injection E as <-. split; [constructor|exact Hi].
  - apply andb_true_iff in Ht. destruct Ht as [He Ht].
    destruct (match e with Do l => okb l s | _ => true end) eqn:Ek; [|discriminate E].
    destruct (happens e s) as [| |s1] eqn:Es; try discriminate E.
    assert (Hi1 : idle_from k s1).
    { intros t Hk. destruct e as [l|t1 t2 b]; cbn [happens] in Es.
      - apply Nat.ltb_lt in He. destruct (cstep_pc l s s1 Es) as [K _]. rewrite K by lia. now apply Hi.
      - destruct (holds s t1 b); [|discriminate Es]. injection Es as <-. now apply Hi. }
    destruct (IH s1 s' Hi1 Ht E) as [R Hs']. split; [|exact Hs']. eapply run_cons; eauto.
    destruct e as [l|]; cbn [allowed]; auto.
Qed.

Definition refersb (c : pc) (b : nat) : bool := match c with ARead (At x) | ACas (At x) _ => (x =? b)%nat | _ => false end.
Definition unlinkedb (c : pc) (b : nat) : bool := match c with DLink x _ => (x =? b)%nat | _ => false end.
Definition idleb (c : pc) : bool := match c with Idle => true | _ => false end.
Definition allocatingb (c : pc) : bool := match c with ALoad | ARead _ | ACas _ _ => true | _ => false end.

Definition no_reuseb (k : nat) (l : label) (s : cstate) : bool :=
  match l with
  | LXchg t => match pcs s t with DXchg b => forallb (fun t' => negb (refersb (pcs s t') b)) (seq 0 k) | _ => true end
  | _ => true
  end.
Definition settledb (k : nat) (l : label) (s : cstate) : bool :=
  match l with
  | LRead t => match pcs s t with ARead (At b) => forallb (fun t' => negb (unlinkedb (pcs s t') b)) (seq 0 k) | _ => true end
  | _ => true
  end.
Definition nestedb (k : nat) (l : label) (s : cstate) : bool :=
  forallb (fun t => (t <=? thread_of l)%nat || idleb (pcs s t)) (seq 0 k).
Definition oneb (k : nat) (l : label) (s : cstate) : bool :=
  match l with
  | LStartAlloc _ => forallb (fun t => negb (allocatingb (pcs s t))) (seq 0 k)
  | LRead _ => forallb (fun t => match pcs s t with DLink _ _ => false | _ => true end) (seq 0 k)
  | _ => true
  end.
Definition serialb (k : nat) (l : label) (s : cstate) : bool :=
  match l with LStartAlloc _ | LStartFree _ _ => forallb (fun t => idleb (pcs s t)) (seq 0 k) | _ => true end.

Lemma idleb_true : forall c, idleb c = true -> c = Idle.
Proof. intros []; simpl; congruence. Qed.

Lemma all_threads : forall k s (f : nat -> bool) t, forallb f (seq 0 k) = true -> idle_from k s -> f t = true \/ pcs s t = Idle.
Proof.
  intros k s f t F I. destruct (Nat.ltb_spec t k) as [H|H]; [|right; now apply I]. left.
  rewrite forallb_forall in F. apply F. apply in_seq. lia.
Qed.

Lemma no_reuseb_ok : forall k l s, idle_from k s -> no_reuseb k l s = true -> no_reuse_rule l s.
Proof.
  intros k [t|t|t|t sp|t b|t|t|t b v] s I H; cbn [no_reuseb no_reuse_rule] in *; auto.
  intros b E t' R. rewrite E in H. destruct (all_threads k s _ t' H I) as [F|F].
  - cbv beta in F. destruct R as [R|[q R]]; rewrite R in F; simpl in F; now rewrite Nat.eqb_refl in F.
  - rewrite F in R. destruct R as [R|[q R]]; discriminate R.
Qed.
Lemma settledb_ok : forall k l s, idle_from k s -> settledb k l s = true -> settled_read_rule l s.
Proof.
  intros k [t|t|t|t sp|t b|t|t|t b v] s I H; cbn [settledb settled_read_rule] in *; auto.
  intros b E t' [q R]. rewrite E in H. destruct (all_threads k s _ t' H I) as [F|F].
  - cbv beta in F. rewrite R in F. simpl in F. now rewrite Nat.eqb_refl in F.
  - congruence.
Qed.
Lemma nestedb_ok : forall k l s, idle_from k s -> nestedb k l s = true -> nested_rule l s.
Proof.
  intros k l s I H t Ht. destruct (all_threads k s _ t H I) as [F|F]; [|exact F]. cbv beta in F. apply orb_true_iff in F.
  destruct F as [F|F]; [apply Nat.leb_le in F; lia|now apply idleb_true].
Qed.
Lemma oneb_ok : forall k l s, idle_from k s -> oneb k l s = true -> one_allocator_rule l s.
Proof.
  intros k [t|t|t|t sp|t b|t|t|t b v] s I H; cbn [oneb one_allocator_rule] in *; auto; intros t'.
  - destruct (all_threads k s _ t' H I) as [F|F]; [|rewrite F; intros []].
    cbv beta in F. destruct (pcs s t'); simpl in F; try discriminate F; intros [].
  - intros b [q R]. destruct (all_threads k s _ t' H I) as [F|F]; [|congruence]. cbv beta in F. rewrite R in F. discriminate F.
Qed.
Lemma serialb_ok : forall k l s, idle_from k s -> serialb k l s = true -> serial_rule l s.
Proof.
  intros k [t|t|t|t sp|t b|t|t|t b v] s I H; cbn [serialb serial_rule] in *; auto; intros t';
    (destruct (all_threads k s _ t' H I) as [F|F]; [now apply idleb_true|exact F]).
Qed.

Lemma cinit_idle : forall n k, idle_from k (cinit n).
Proof. intros n k t _. reflexivity. Qed.

(** ** Consequences, for every state with the invariant *)

Lemma w_exclusive : forall n fr s, WInv n fr s -> NoDup (held s) /\ forall b, In b (held s) -> (b < n)%nat.
Proof.
  intros n fr s I. pose proof (wi_nodup _ _ _ I) as Hnd. apply nodup_app_iff in Hnd. split; [tauto|].
  intros b Hb. apply (wi_lt _ _ _ I). apply in_app_iff. auto.
Qed.

Lemma w_null : forall n fr s, WInv n fr s ->
  (chead s = Null <-> forall b, (b < n)%nat -> In b (held s) \/ exists t, pcs s t = DXchg b).
Proof.
  intros n fr s I. pose proof (wi_chain _ _ _ I) as C. destruct fr as [|x fr]; simpl in C.
  - split; [|intros _; exact C]. intros _ b Hb. apply (wi_all _ _ _ I b Hb).
  - destruct C as [C _]. split; [congruence|]. intro H. exfalso.
    assert (Hx : (x < n)%nat) by (apply (wi_lt _ _ _ I); now left).
    destruct (H x Hx) as [Hh|[t Ht]].
    + pose proof (wi_nodup _ _ _ I) as Hnd. apply nodup_app_iff in Hnd. destruct Hnd as [_ [_ N3]]. apply (N3 x); [now left|exact Hh].
    + apply (proj2 (wi_xchg _ _ _ I t x Ht)). now left.
Qed.

Lemma w_count : forall n fr s, WInv n fr s -> (forall t b, pcs s t <> DXchg b) -> (length fr + length (held s) = n)%nat.
Proof.
  intros n fr s I H. rewrite <- app_length.
  replace n with (length (seq 0 n)) by apply seq_length. apply Permutation_length.
  apply NoDup_Permutation; [apply (wi_nodup _ _ _ I)|apply seq_NoDup|].
  intros x. rewrite in_seq. split; intros Hx.
  - pose proof (wi_lt _ _ _ I x Hx). lia.
  - destruct (wi_all _ _ _ I x ltac:(lia)) as [Hy|[t Hy]]; [exact Hy|]. exfalso. now apply (H t x).
Qed.

(** When nobody is inside deallocate and not all blocks are held, thread [t], outside of the pool's functions, gets one of the others
    by its next four steps, whoever else is inside allocate. *)
Lemma w_not_lost : forall n fr s t, WInv n fr s -> (forall t', ~ deallocating (pcs s t')) -> pcs s t = Idle -> (length (held s) < n)%nat ->
  exists b s', crun [LStartAlloc t; LLoad t; LRead t; LCas t false] s = Step s' /\
    holders s' = (t, b) :: holders s /\ pcs s' t = Idle /\ ~ In b (held s) /\ (b < n)%nat.
Proof.
  intros n fr s t I Q Et Hl.
  assert (HX : forall t' b, pcs s t' <> DXchg b) by (intros t' b C; apply (Q t'); rewrite C; exact Logic.I).
  pose proof (w_count n fr s I HX) as Hc. pose proof (wi_chain _ _ _ I) as C.
  destruct fr as [|b fr']; [simpl in Hc; lia|]. destruct C as [Hh [q [L C]]].
  assert (En : nth_error (cmem s) b = Some (CNext q)).
  { apply lk_settled; [exact L|]. intros t' [y E]. apply (Q t'). rewrite E. exact Logic.I. }
  exists b. eexists. split; [|split; [|split; [|split]]].
  - cbn [crun]. unfold cstep at 1. rewrite Et. unfold cstep at 1. cbn [set_pc pcs chead]. rewrite upd_same, Hh.
    unfold cstep at 1. cbn [set_pc pcs cmem]. rewrite upd_same, En. unfold cstep at 1. cbn [set_pc pcs chead]. rewrite upd_same, Hh.
    cbn [ptr_eqb]. rewrite Nat.eqb_refl. cbn [negb andb as_ptr]. reflexivity.
  - reflexivity.
  - cbn [pcs]. apply upd_same.
  - pose proof (wi_nodup _ _ _ I) as Hnd. apply nodup_app_iff in Hnd. destruct Hnd as [_ [_ N3]]. apply N3. now left.
  - apply (wi_lt _ _ _ I). now left.
Qed.

Lemma w_data_do : forall n fr s l s' b, WInv n fr s -> In b (held s) ->
  cstep l s = Step s' -> (forall t v, l <> LWrite t b v) -> nth_error (cmem s') b = nth_error (cmem s) b.
Proof.
  intros n fr s l s' b I Hb E W. pose proof (wi_nodup _ _ _ I) as Hnd. apply nodup_app_iff in Hnd. destruct Hnd as [_ [_ N3]].
  destruct l as [t|t|t|t sp|t x|t|t|t x v]; unfold cstep in E; destruct (pcs s t) as [| |p|p q|y|y old] eqn:Ep; try discriminate E.
  - injection E as <-. reflexivity.
  - injection E as <-. reflexivity.
  - destruct p as [|a|]; try discriminate E. destruct (nth_error (cmem s) a); [|discriminate E]. injection E as <-. reflexivity.
  - destruct p as [|a|]; try discriminate E. destruct (_ && _); injection E as <-; reflexivity.
  - destruct (holds s t x); [|discriminate E]. injection E as <-. reflexivity.
  - injection E as <-. reflexivity.
  - destruct (Nat.ltb_spec y (length (cmem s))) as [Hy|]; [|discriminate E]. injection E as <-. cbn [cmem].
    rewrite replace_nth_error by exact Hy. destruct (Nat.eqb_spec b y) as [->|]; [|reflexivity].
    exfalso. apply (N3 y); [|exact Hb]. apply (wi_link _ _ _ I t y old Ep).
  - destruct (holds s t x); cbn [andb] in E; [|discriminate E].
    destruct (Nat.ltb_spec x (length (cmem s))) as [Hx|]; [|discriminate E]. injection E as <-. cbn [cmem].
    rewrite replace_nth_error by exact Hx. destruct (Nat.eqb_spec b x) as [->|]; [|reflexivity]. exfalso. now apply (W t v).
Qed.

Lemma w_data : forall n fr s e s' b, WInv n fr s -> In b (held s) ->
  happens e s = Step s' -> (forall t v, e <> Do (LWrite t b v)) -> nth_error (cmem s') b = nth_error (cmem s) b.
Proof.
  intros n fr s [l|t t' x] s' b I Hb E W; cbn [happens] in E.
  - eapply w_data_do; eauto. intros t v ->. now apply (W t v).
  - destruct (holds s t x); [|discriminate E]. injection E as <-. reflexivity.
Qed.

Lemma w_refusal : forall n fr s l s', WInv n fr s -> cstep l s = Step s' ->
  allocating (pcs s (thread_of l)) -> pcs s' (thread_of l) = Idle ->
  (exists b, holders s' = (thread_of l, b) :: holders s) \/
  (forall b, (b < n)%nat -> In b (held s) \/ exists t', pcs s t' = DXchg b).
Proof.
  intros n fr s l s' I E A D.
  destruct l as [t|t|t|t sp|t b|t|t|t b v]; cbn [thread_of] in *; unfold cstep in E; destruct (pcs s t) as [| |p|p q|x|x old] eqn:Ep;
    try discriminate E; try (now destruct A).
  - injection E as <-. right. apply (w_null n fr s I). cbn [set_pc pcs] in D. rewrite upd_same in D. destruct (chead s); congruence.
  - destruct p as [|b|z]; try discriminate E. destruct (nth_error (cmem s) b); [|discriminate E]. injection E as <-.
    cbn [set_pc pcs] in D. rewrite upd_same in D. discriminate D.
  - destruct p as [|b|z]; try discriminate E. destruct (_ && _); injection E as <-.
    + left. exists b. reflexivity.
    + cbn [set_pc pcs] in D. rewrite upd_same in D. discriminate D.
Qed.

Lemma w_safe : forall (ok : rule) n fr s, WInv n fr s -> (forall e s', allowed ok e s -> happens e s = Step s' \/ happens e s = Crash ->
  allowed hazard_rule e s) -> pool_safe ok n s.
Proof.
  intros ok n fr s I H. destruct (w_exclusive n fr s I) as [X1 X2]. constructor; auto.
  - intros e A C. apply (proj1 (w_happens n fr s e I (H e s A (or_intror C)))). exact C.
  - intros t b v Et Eh. assert (Hb : (b < n)%nat) by (apply X2; apply in_map_iff; exists (t, b); split; [reflexivity|now apply holds_in]).
    eexists. unfold cstep. rewrite Et, Eh. rewrite <- (wi_len _ _ _ I) in Hb. rewrite (proj2 (Nat.ltb_lt _ _) Hb). cbn [andb].
    split; [reflexivity|]. cbn [cmem]. rewrite replace_nth_error by exact Hb. now rewrite Nat.eqb_refl.
  - intros e s' b A. apply (w_data n fr s e s' b I).
  - intros t Et. eexists. unfold cstep. rewrite Et. split; [reflexivity|]. cbn [set_pc pcs]. rewrite upd_same.
    rewrite <- (w_null n fr s I). destruct (chead s); split; congruence.
  - intros l s' E. apply (w_refusal n fr s l s' I E).
  - intros t. apply (w_not_lost n fr s t I).
Qed.

Lemma hazard_safe : forall n s, (0 < n)%nat -> reachable_with hazard_rule n s -> pool_safe hazard_rule n s.
Proof. intros n s Hn R. destruct (hazard_inv n s Hn R) as [fr I]. apply (w_safe _ n fr s I). auto. Qed.

Lemma one_safe : forall n s, (0 < n)%nat -> reachable_with one_allocator_rule n s -> pool_safe one_allocator_rule n s.
Proof.
  intros n s Hn R. destruct (one_reach n s Hn R) as [[fr I] _]. apply (w_safe _ n fr s (proj1 I)).
  intros [l|t t' b] _ A _; cbn [allowed] in *; auto. eapply one_hazard; eauto.
Qed.

Lemma irq_one_rule : forall l s, main_only s -> handlers_free_rule l s -> cstep l s <> Disabled -> one_allocator_rule l s.
Proof.
  intros l s M [N A] E. destruct l as [t|t|t|t sp|t b|t|t|t b v]; cbn [one_allocator_rule]; auto.
  - subst t. intros t At. assert (t = 0%nat) as -> by now apply M. apply E. unfold cstep.
    destruct (pcs s 0); try reflexivity. destruct At.
  - intros t' b [q C]. unfold cstep in E. destruct (pcs s t) as [| |p| | |] eqn:Ep; try (now elim E).
    assert (t = 0%nat) as -> by (apply M; rewrite Ep; exact Logic.I).
    destruct t' as [|t']; [congruence|]. rewrite (N (S t')) in C by (cbn [thread_of]; lia). discriminate C.
Qed.

Lemma irq_safe : forall n s, (0 < n)%nat -> reachable_with handlers_free_rule n s -> pool_safe handlers_free_rule n s.
Proof.
  intros n s Hn R. destruct (irq_reach n s Hn R) as [M R1]. destruct (one_reach n s Hn R1) as [[fr I] _].
  apply (w_safe _ n fr s (proj1 I)). intros [l|t t' b] s' A E; cbn [allowed happens] in *; auto. eapply one_hazard; eauto.
  apply irq_one_rule; auto. destruct E as [E|E]; rewrite E; discriminate.
Qed.

Lemma phase_hazard : forall s l, one_kind s -> phase_ok l s -> hazard_rule l s.
Proof.
  intros s l K P. split; destruct l as [t|t|t|t sp|t b|t|t|t b v]; cbn [no_reuse_rule settled_read_rule]; auto.
  - intros b Ex t' R. apply (K t' t); [now apply refers_allocating with b|rewrite Ex; exact Logic.I].
  - intros b Ex t' [q U]. apply (K t t'); [rewrite Ex|rewrite U]; exact Logic.I.
Qed.

Lemma phase_safe : forall n s, (0 < n)%nat -> reachable_with phase_ok n s -> pool_safe phase_ok n s.
Proof.
  intros n s Hn R. destruct (phase_reach n s R) as [K R1]. destruct (hazard_inv n s Hn R1) as [fr I].
  apply (w_safe _ n fr s I). intros [l|t t' b] s' A E; cbn [allowed happens] in *; auto. now apply phase_hazard.
Qed.

Lemma serial_safe : forall n s, (0 < n)%nat -> reachable_with serial_rule n s ->
  pool_safe serial_rule n s /\
  forall t, pcs s t = ALoad -> exists s', cstep (LLoad t) s = Step s' /\ (pcs s' t = Idle <-> length (held s) = n).
Proof.
  intros n s Hn R. destruct (serial_reach n s R) as [B R1]. destruct (phase_reach n s R1) as [K R2].
  destruct (hazard_inv n s Hn R2) as [fr I]. split.
  - apply (w_safe _ n fr s I). intros [l|t t' b] s' A E; cbn [allowed happens] in *; auto.
    apply phase_hazard; auto. now apply serial_phase.
  - intros t Et. eexists. unfold cstep. rewrite Et. split; [reflexivity|]. cbn [set_pc pcs]. rewrite upd_same.
    assert (HX : forall t' b, pcs s t' <> DXchg b).
    { intros t' b C. assert (t' = t) as -> by (apply B; congruence). congruence. }
    pose proof (w_count n fr s I HX) as Hc. pose proof (wi_chain _ _ _ I) as C.
    destruct fr as [|x fr]; simpl in C; [rewrite C; simpl in Hc; split; [lia|reflexivity]|].
    destruct C as [C _]. rewrite C. simpl in Hc. split; [discriminate|lia].
Qed.

(** ** Data races *)
Lemma holds_unique : forall s t t' b, NoDup (held s) -> holds s t b = true -> holds s t' b = true -> t = t'.
Proof.
  intros s t t' b N H H'. apply holds_in in H. apply holds_in in H'. unfold held in N.
  induction (holders s) as [|[x y] hs IH]; [destruct H|]. simpl in N. apply NoDup_cons_iff in N. destruct N as [Ny N].
  assert (K : forall z, In (z, b) hs -> In b (map snd hs)) by (intros z Hz; apply in_map_iff; exists (z, b); auto).
  destruct H as [H|H], H' as [H'|H'].
  - congruence.
  - injection H as -> ->. exfalso. apply Ny. now apply (K t').
  - injection H' as -> ->. exfalso. apply Ny. now apply (K t).
  - auto.
Qed.

Lemma no_race_reading : forall (ok : rule) n fr s, one_inv n fr s ->
  (forall t b, pcs s t = ARead (At b) -> ok (LRead t) s -> one_allocator_rule (LRead t) s) -> ~ data_race ok s.
Proof.
  intros ok n fr s (I & _ & Rf) H (t & t' & b & w & N & A & A').
  pose proof (wi_nodup _ _ _ I) as Hnd. apply nodup_app_iff in Hnd. destruct Hnd as [_ [N2 N3]].
  assert (K : forall x, holds s x b = true -> In b (held s)) by (intros x Hx; apply holds_in in Hx; apply in_map_iff; exists (x, b); auto).
  inversion A; subst; inversion A'; subst.
  - match goal with E : pcs s t' = ARead _, O : ok (LRead t') s |- _ =>
      apply (H t' b E) in O; cbn [one_allocator_rule] in O; apply (O t b); eexists; eassumption end.
  - apply N. eapply (wi_link2 _ _ _ I); eassumption.
  - apply (N3 b); [eapply (wi_link _ _ _ I); eassumption|eapply K; eassumption].
  - apply (N3 b); [apply (Rf t'); left; assumption|eapply K; eassumption].
  - apply (N3 b); [eapply (wi_link _ _ _ I); eassumption|eapply K; eassumption].
  - apply N. eapply holds_unique; eassumption.
Qed.

Lemma one_race_free : forall n s, (0 < n)%nat -> reachable_with one_allocator_rule n s -> ~ data_race one_allocator_rule s.
Proof. intros n s Hn R. destruct (one_reach n s Hn R) as [[fr I] _]. apply (no_race_reading _ n fr s I). auto. Qed.

Lemma irq_race_free : forall n s, (0 < n)%nat -> reachable_with handlers_free_rule n s -> ~ data_race handlers_free_rule s.
Proof.
  intros n s Hn R. destruct (irq_reach n s Hn R) as [M R1]. destruct (one_reach n s Hn R1) as [[fr I] _].
  apply (no_race_reading _ n fr s I). intros t b E O. apply irq_one_rule; auto.
  unfold cstep. rewrite E. destruct (nth_error (cmem s) b); discriminate.
Qed.

Lemma serial_one : forall n s, reachable_with serial_rule n s -> reachable_with one_allocator_rule n s.
Proof.
  intros n s [ls R]. remember (cinit n) as s0. induction R as [s|s ls s1 e s2 R IH P E]; subst.
  - exists []. constructor.
  - destruct (IH eq_refl) as [ls' R']. exists (ls' ++ [e]). econstructor; eauto.
    assert (B : one_busy s1) by (apply (serial_reach n); eexists; eassumption).
    destruct e as [[t|t|t|t sp|t b|t|t|t b v]|t t' b]; cbn [allowed one_allocator_rule serial_rule] in *; auto.
    + intros t'. rewrite P. intros [].
    + intros t' b [q C]. cbn [happens] in E. unfold cstep in E. destruct (pcs s1 t) as [| |p| | |] eqn:Ep; try discriminate E.
      assert (t = t') by (apply B; congruence). congruence.
Qed.

Lemma serial_race_free : forall n s, (0 < n)%nat -> reachable_with serial_rule n s -> ~ data_race serial_rule s.
Proof.
  intros n s Hn R. destruct (one_reach n s Hn (serial_one n s R)) as [[fr I] _].
  assert (B : one_busy s) by now apply (serial_reach n).
  apply (no_race_reading _ n fr s I). intros t b E _. cbn [one_allocator_rule]. intros t' x [q C].
  assert (t = t') by (apply B; congruence). congruence.
Qed.
