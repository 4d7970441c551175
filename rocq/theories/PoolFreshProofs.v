(** Proofs for C147. *)
From Coq Require Import ZArith Bool List Arith Lia Permutation.
From Verif Require Import Outcome CanFrameModel CanFrameProofs PoolModel PoolSpec PoolProofs PoolConcModel PoolConcSpec PoolConcProofs
  PoolUseSpec PoolUseProofs PoolFreshSpec.
Import ListNotations.
Open Scope nat_scope.

(** [fr]: the blocks in the list, pending links counted as made; [lost]: blocks that are neither there nor held nor on the way back. *)
Record XInv (n : nat) (lost fr : list nat) (s : cstate) : Prop := {
  x_len : length (cmem s) = n;
  x_chain : chainR (lk s) (chead s) fr;
  x_fr : NoDup fr;
  x_held : NoDup (held s);
  x_apart : forall b, In b fr -> ~ In b lost /\ ~ In b (held s);
  x_apart2 : forall b, In b lost -> ~ In b (held s);
  x_lt : forall b, In b fr \/ In b lost \/ In b (held s) -> b < n;
  x_xchg : forall t b, pcs s t = DXchg b -> b < n /\ ~ (In b fr \/ In b lost \/ In b (held s));
  x_xchg2 : forall t t' b, pcs s t = DXchg b -> pcs s t' = DXchg b -> t = t';
  x_link : forall t b q, pcs s t = DLink b q -> In b fr \/ In b lost;
  x_link2 : forall t t' b q q', pcs s t = DLink b q -> pcs s t' = DLink b q' -> t = t';
  x_all : forall b, b < n -> In b fr \/ In b lost \/ In b (held s) \/ exists t, pcs s t = DXchg b;
  x_read : forall t p, pcs s t = ARead p -> exists b, p = At b /\ b < n;
  x_cas : forall t p q, pcs s t = ACas p q -> exists b, p = At b /\ b < n
}.

Lemma x_of_w : forall n fr s, WInv n fr s -> XInv n [] fr s.
Proof.
  intros n fr s I. destruct I. apply nodup_app_iff in wi_nodup. destruct wi_nodup as (N1 & N2 & N3).
  constructor; auto.
  - intros b [H|[[]|H]]; apply wi_lt, in_app_iff; auto.
  - intros t b E. destruct (wi_xchg t b E) as [H1 H2]. split; [exact H1|]. rewrite in_app_iff in H2. cbn [In]. tauto.
  - intros t b q E. left. now apply (wi_link t b q).
  - intros b Hb. destruct (wi_all b Hb) as [H|H]; [|auto]. apply in_app_iff in H. tauto.
  - intros t p q E. destruct (wi_cas t p q E) as (b & Eb & Hb & _). eauto.
Qed.

Ltac at_thread t f c t' E :=
  let U := fresh "U" in let N := fresh "N" in
  destruct (upd_cases f t c t') as [[-> U]|[N U]]; rewrite U in E.

Lemma x_set_pc : forall n lost fr s t c,
  XInv n lost fr s -> ~ deallocating (pcs s t) -> ~ deallocating c ->
  (forall p, c = ARead p -> exists b, p = At b /\ b < n) ->
  (forall p q, c = ACas p q -> exists b, p = At b /\ b < n) ->
  XInv n lost fr (set_pc s t c).
Proof.
  intros n lost fr s t c I Hd0 Hd Hr Hc.
  assert (Hl : forall b q, pcs s t <> DLink b q) by (intros b q E; apply Hd0; rewrite E; exact Logic.I).
  assert (Hx : forall b, pcs s t <> DXchg b) by (intros b E; apply Hd0; rewrite E; exact Logic.I).
  assert (Hl' : forall b q, c <> DLink b q) by (intros b q E; apply Hd; rewrite E; exact Logic.I).
  assert (Hx' : forall b, c <> DXchg b) by (intros b E; apply Hd; rewrite E; exact Logic.I).
  destruct I. constructor; unfold held in *; cbn [set_pc cmem chead pcs holders]; auto.
  - eapply chainR_impl; [|exact x_chain0]. intros b q _ [[t' E]|[E H]].
    + left. exists t'. cbn [set_pc pcs]. rewrite upd_other; [exact E|]. intros ->. now apply (Hl b q).
    + right. split; [exact E|]. intros t' q' C. cbn [set_pc pcs] in C. at_thread t (pcs s) c t' C; [now apply (Hl' b q')|now apply (H t' q')].
  - intros t' b E. at_thread t (pcs s) c t' E; [now destruct (Hx' b)|eauto].
  - intros t1 t2 b E1 E2. at_thread t (pcs s) c t1 E1; [now destruct (Hx' b)|]. at_thread t (pcs s) c t2 E2; [now destruct (Hx' b)|eauto].
  - intros t' b q E. at_thread t (pcs s) c t' E; [now destruct (Hl' b q)|eauto].
  - intros t1 t2 b q q' E1 E2. at_thread t (pcs s) c t1 E1; [now destruct (Hl' b q)|].
    at_thread t (pcs s) c t2 E2; [now destruct (Hl' b q')|eauto].
  - intros b Hb. destruct (x_all0 b Hb) as [H|[H|[H|[t' H]]]]; auto. do 3 right. exists t'. rewrite upd_other; [exact H|].
    intros ->. now apply (Hx b).
  - intros t' p E. at_thread t (pcs s) c t' E; eauto.
  - intros t' p q E. at_thread t (pcs s) c t' E; eauto.
Qed.

(** A block leaves the list: it goes to thread [t]. [q] is what becomes the head; the blocks before it are lost. *)
Lemma x_take : forall n lost fr s t b q skip fr',
  XInv n lost fr s -> (exists p z, pcs s t = ACas p z) -> fr = b :: skip ++ fr' -> chainR (lk s) q fr' ->
  (forall t', ~ unlinked (pcs s t') b) ->
  XInv n (skip ++ lost) fr' (CState (cmem s) q (upd (pcs s) t Idle) ((t, b) :: holders s) (S (pops s))).
Proof.
  intros n lost fr s t b q skip fr' I (p0 & z0 & Hpc) -> C U.
  pose proof (x_fr _ _ _ _ I) as N. apply NoDup_cons_iff in N. destruct N as [Nb N]. apply nodup_app_iff in N. destruct N as (N1 & N2 & N3).
  rewrite in_app_iff in Nb.
  assert (In1 : forall x, In x (skip ++ fr') -> In x (b :: skip ++ fr')) by (intros; now right).
  assert (P : forall t' c, upd (pcs s) t Idle t' = c -> c <> Idle -> pcs s t' = c).
  { intros t' c E H. at_thread t (pcs s) Idle t' E; congruence. }
  constructor; unfold held in *; cbn [cmem chead pcs holders map snd].
  - apply (x_len _ _ _ _ I).
  - eapply chainR_impl; [|exact C]. intros x y _ [[t' E]|[E H]].
    + left. exists t'. cbn [pcs]. rewrite upd_other; [exact E|]. intros ->. congruence.
    + right. split; [exact E|]. intros t' z E'. cbn [pcs] in E'. apply P in E'; [|discriminate]. now apply (H t' z).
  - exact N2.
  - apply NoDup_cons; [|apply (x_held _ _ _ _ I)]. apply (x_apart _ _ _ _ I b). now left.
  - intros x Hx. destruct (x_apart _ _ _ _ I x) as [H1 H2]; [apply In1, in_app_iff; auto|]. rewrite in_app_iff. split.
    + intros [H|H]; [now apply (N3 x)|auto].
    + intros [->|H]; [tauto|auto].
  - intros x Hx. apply in_app_iff in Hx. intros [->|H].
    + destruct Hx as [Hx|Hx]; [tauto|]. now apply (proj1 (x_apart _ _ _ _ I x (or_introl eq_refl))).
    + destruct Hx as [Hx|Hx]; [|now apply (x_apart2 _ _ _ _ I x)].
      apply (proj2 (x_apart _ _ _ _ I x (In1 x ltac:(apply in_app_iff; auto)))). exact H.
  - intros x Hx. apply (x_lt _ _ _ _ I). rewrite in_app_iff in Hx. cbn [In] in Hx |- *. rewrite in_app_iff. tauto.
  - intros t' x E. apply P in E; [|discriminate]. destruct (x_xchg _ _ _ _ I t' x E) as [H1 H2]. split; [exact H1|]. intro Hx. apply H2.
    rewrite in_app_iff in Hx. cbn [In] in Hx |- *. rewrite in_app_iff. tauto.
  - intros t1 t2 x E1 E2. apply P in E1, E2; try discriminate. now apply (x_xchg2 _ _ _ _ I t1 t2 x).
  - intros t' x y E. apply P in E; [|discriminate]. destruct (x_link _ _ _ _ I t' x y E) as [[->|H]|H].
    + exfalso. apply (U t'). now exists y.
    + apply in_app_iff in H. rewrite in_app_iff. tauto.
    + rewrite in_app_iff. tauto.
  - intros t1 t2 x y y' E1 E2. apply P in E1, E2; try discriminate. now apply (x_link2 _ _ _ _ I t1 t2 x y y').
  - intros x Hx. destruct (x_all _ _ _ _ I x Hx) as [[->|H]|[H|[H|[t' H]]]].
    + right. right. left. now left.
    + apply in_app_iff in H. rewrite in_app_iff. tauto.
    + rewrite in_app_iff. tauto.
    + right. right. left. now right.
    + do 3 right. exists t'. rewrite upd_other; [exact H|]. intros ->. congruence.
  - intros t' p E. apply P in E; [|discriminate]. now apply (x_read _ _ _ _ I t').
  - intros t' p y E. apply P in E; [|discriminate]. now apply (x_cas _ _ _ _ I t' p y).
Qed.

Lemma x_free : forall n lost fr s t b,
  XInv n lost fr s -> pcs s t = Idle -> holds s t b = true ->
  XInv n lost fr (CState (cmem s) (chead s) (upd (pcs s) t (DXchg b)) (drop t b (holders s)) (pops s)).
Proof.
  intros n lost fr s t b I Hpc Hh. apply holds_in in Hh.
  pose proof (drop_nodup t b _ (x_held _ _ _ _ I) Hh) as P.
  assert (Hb : In b (held s)) by (apply in_map_iff; exists (t, b); auto).
  assert (N2' : NoDup (b :: map snd (drop t b (holders s)))) by (eapply Permutation_NoDup; [exact P|apply (x_held _ _ _ _ I)]).
  apply NoDup_cons_iff in N2'. destruct N2' as [Nb N2'].
  assert (Hin : forall x, In x (map snd (drop t b (holders s))) -> In x (held s)).
  { intros x Hx. apply (Permutation_in _ (Permutation_sym P)). now right. }
  assert (Hin2 : forall x, In x (held s) -> x = b \/ In x (map snd (drop t b (holders s)))).
  { intros x Hx. apply (Permutation_in _ P) in Hx. destruct Hx; auto. }
  destruct I. constructor; unfold held in *; cbn [cmem chead pcs holders]; auto.
  - eapply chainR_impl; [|exact x_chain0]. intros x q _ [[t' E]|[E H]].
    + left. exists t'. cbn [pcs]. rewrite upd_other; [exact E|]. intros ->. congruence.
    + right. split; [exact E|]. intros t' q' C. cbn [pcs] in C. at_thread t (pcs s) (DXchg b) t' C; [discriminate|now apply (H t' q')].
  - intros x Hx. destruct (x_apart0 x Hx) as [H1 H2]. split; auto.
  - intros x Hx H. apply (x_apart3 x Hx). auto.
  - intros x [H|[H|H]]; auto.
  - intros t' x E. at_thread t (pcs s) (DXchg b) t' E.
    + injection E as <-. split; [auto|]. intros [H|[H|H]]; [now apply (x_apart0 b H)|now apply (x_apart3 b H)|auto].
    + destruct (x_xchg0 t' x E) as [H1 H2]. split; [exact H1|]. intros [H|[H|H]]; apply H2; auto.
  - intros t1 t2 x E1 E2. at_thread t (pcs s) (DXchg b) t1 E1; at_thread t (pcs s) (DXchg b) t2 E2; auto.
    + injection E1 as <-. exfalso. apply (proj2 (x_xchg0 t2 b E2)). auto.
    + injection E2 as <-. exfalso. apply (proj2 (x_xchg0 t1 b E1)). auto.
    + eauto.
  - intros t' x q E. at_thread t (pcs s) (DXchg b) t' E; [discriminate|eauto].
  - intros t1 t2 x q q' E1 E2. at_thread t (pcs s) (DXchg b) t1 E1; [discriminate|]. at_thread t (pcs s) (DXchg b) t2 E2; [discriminate|eauto].
  - intros x Hx. destruct (x_all0 x Hx) as [H|[H|[H|[t' H]]]]; auto.
    + destruct (Hin2 x H) as [->|H']; auto. do 3 right. exists t. apply upd_same.
    + do 3 right. exists t'. rewrite upd_other; [exact H|]. intros ->. congruence.
  - intros t' p E. at_thread t (pcs s) (DXchg b) t' E; [discriminate|eauto].
  - intros t' p q E. at_thread t (pcs s) (DXchg b) t' E; [discriminate|eauto].
Qed.

Lemma x_put : forall n lost fr s t b,
  XInv n lost fr s -> pcs s t = DXchg b ->
  XInv n lost (b :: fr) (CState (cmem s) (At b) (upd (pcs s) t (DLink b (chead s))) (holders s) (pops s)).
Proof.
  intros n lost fr s t b I Hpc.
  destruct (x_xchg _ _ _ _ I t b Hpc) as [Hb Hnin].
  destruct I. constructor; unfold held in *; cbn [cmem chead pcs holders]; auto.
  - split; [reflexivity|]. exists (chead s). split; [left; exists t; cbn [pcs]; apply upd_same|].
    eapply chainR_impl; [|exact x_chain0]. intros x q Hx [[t' E]|[E H]].
    + left. exists t'. cbn [pcs]. rewrite upd_other; [exact E|]. intros ->. congruence.
    + right. split; [exact E|]. intros t' q' C. cbn [pcs] in C. at_thread t (pcs s) (DLink b (chead s)) t' C; [|now apply (H t' q')].
      injection C as <- _. tauto.
  - apply NoDup_cons; [tauto|exact x_fr0].
  - intros x [<-|Hx]; [tauto|auto].
  - intros x [[<-|H]|H]; auto.
  - intros t' x E. at_thread t (pcs s) (DLink b (chead s)) t' E; [discriminate|].
    destruct (x_xchg0 t' x E) as [H1 H2]. split; [exact H1|]. intros [[<-|Hx]|Hx]; [|tauto..]. apply N. eauto.
  - intros t1 t2 x E1 E2. at_thread t (pcs s) (DLink b (chead s)) t1 E1; [discriminate|].
    at_thread t (pcs s) (DLink b (chead s)) t2 E2; [discriminate|eauto].
  - intros t' x q E. at_thread t (pcs s) (DLink b (chead s)) t' E.
    + injection E as <- _. left. now left.
    + destruct (x_link0 t' x q E); auto. left. now right.
  - intros t1 t2 x q q' E1 E2. at_thread t (pcs s) (DLink b (chead s)) t1 E1; at_thread t (pcs s) (DLink b (chead s)) t2 E2; auto.
    + injection E1 as <- _. exfalso. pose proof (x_link0 t2 _ _ E2). tauto.
    + injection E2 as <- _. exfalso. pose proof (x_link0 t1 _ _ E1). tauto.
    + eauto.
  - intros x Hx. destruct (x_all0 x Hx) as [H|[H|[H|[t' H]]]]; auto; [left; now right|].
    destruct (Nat.eq_dec t' t) as [->|N].
    + left. left. congruence.
    + do 3 right. exists t'. now rewrite upd_other.
  - intros t' p E. at_thread t (pcs s) (DLink b (chead s)) t' E; [discriminate|eauto].
  - intros t' p q E. at_thread t (pcs s) (DLink b (chead s)) t' E; [discriminate|eauto].
Qed.

Lemma x_do_link : forall n lost fr s t b q,
  XInv n lost fr s -> pcs s t = DLink b q ->
  b < length (cmem s) /\
  XInv n lost fr (CState (replace_nth b (CNext q) (cmem s)) (chead s) (upd (pcs s) t Idle) (holders s) (pops s)).
Proof.
  intros n lost fr s t b q I Hpc.
  assert (Hb : b < length (cmem s)).
  { rewrite (x_len _ _ _ _ I). apply (x_lt _ _ _ _ I). destruct (x_link _ _ _ _ I t b q Hpc); auto. }
  split; [exact Hb|].
  destruct I. constructor; unfold held in *; cbn [cmem chead pcs holders]; auto.
  - now rewrite replace_nth_length.
  - eapply chainR_impl; [|exact x_chain0]. intros x y Hx L. destruct (Nat.eq_dec x b) as [->|Nx].
    + assert (y = q) as ->.
      { destruct L as [[t' E]|[_ H]]; [|exfalso; now apply (H t q)].
        pose proof (x_link3 t' t b y q E Hpc). subst t'. congruence. }
      right. split; cbn [cmem pcs].
      * rewrite replace_nth_error by exact Hb. now rewrite Nat.eqb_refl.
      * intros t' q' E. at_thread t (pcs s) Idle t' E; [discriminate|]. apply N. eauto.
    + destruct L as [[t' E]|[E H]].
      * left. exists t'. cbn [pcs]. rewrite upd_other; [exact E|]. intros ->. congruence.
      * right. split; cbn [cmem pcs].
        -- rewrite replace_nth_error by exact Hb. destruct (Nat.eqb_spec x b); [congruence|exact E].
        -- intros t' q' C. at_thread t (pcs s) Idle t' C; [discriminate|]. now apply (H t' q').
  - intros t' x E. at_thread t (pcs s) Idle t' E; [discriminate|eauto].
  - intros t1 t2 x E1 E2. at_thread t (pcs s) Idle t1 E1; [discriminate|]. at_thread t (pcs s) Idle t2 E2; [discriminate|eauto].
  - intros t' x y E. at_thread t (pcs s) Idle t' E; [discriminate|eauto].
  - intros t1 t2 x y y' E1 E2. at_thread t (pcs s) Idle t1 E1; [discriminate|]. at_thread t (pcs s) Idle t2 E2; [discriminate|eauto].
  - intros x Hx. destruct (x_all0 x Hx) as [H|[H|[H|[t' H]]]]; auto. do 3 right. exists t'. rewrite upd_other; [exact H|].
    intros ->. congruence.
  - intros t' p E. at_thread t (pcs s) Idle t' E; [discriminate|eauto].
  - intros t' p y E. at_thread t (pcs s) Idle t' E; [discriminate|eauto].
Qed.

Lemma x_write : forall n lost fr s t b v,
  XInv n lost fr s -> holds s t b = true -> b < length (cmem s) ->
  XInv n lost fr (CState (replace_nth b (CData v) (cmem s)) (chead s) (pcs s) (holders s) (pops s)).
Proof.
  intros n lost fr s t b v I Hh Hb. apply holds_in in Hh.
  assert (Hin : In b (held s)) by (apply in_map_iff; exists (t, b); auto).
  destruct I. constructor; unfold held in *; cbn [cmem chead pcs holders]; auto.
  - now rewrite replace_nth_length.
  - eapply chainR_impl; [|exact x_chain0]. intros x q Hx [[t' E]|[E H]]; [left; eauto|right].
    split; cbn [cmem pcs]; auto. rewrite replace_nth_error by exact Hb.
    destruct (Nat.eqb_spec x b) as [->|]; [exfalso; now apply (proj2 (x_apart0 b Hx))|exact E].
Qed.

Lemma x_give : forall n lost fr s t t' b, XInv n lost fr s -> holds s t b = true ->
  XInv n lost fr (CState (cmem s) (chead s) (pcs s) ((t', b) :: drop t b (holders s)) (pops s)).
Proof.
  intros n lost fr s t t' b I Hh. apply holds_in in Hh.
  pose proof (drop_nodup t b _ (x_held _ _ _ _ I) Hh) as P.
  assert (Q : forall x, In x (b :: map snd (drop t b (holders s))) <-> In x (held s)).
  { intro x. split; intro H; [apply (Permutation_in _ (Permutation_sym P) H)|apply (Permutation_in _ P H)]. }
  destruct I. constructor; unfold held in *; cbn [cmem chead pcs holders map snd]; auto.
  - eapply Permutation_NoDup; eauto.
  - intros x Hx. rewrite Q. auto.
  - intros x Hx. rewrite Q. auto.
  - intros x. rewrite Q. auto.
  - intros t0 x E. rewrite Q. eauto.
  - intros x Hx. rewrite Q. auto.
Qed.

Lemma x_cas_fresh : forall n lost fr s t b q,
  XInv n lost fr s -> takes s t b q -> up_to_date s b q ->
  exists fr', fr = b :: fr' /\
    XInv n lost fr' (CState (cmem s) q (upd (pcs s) t Idle) ((t, b) :: holders s) (S (pops s))).
Proof.
  intros n lost fr s t b q I [Hpc Hh] [U (c & En & Eq)].
  pose proof (x_chain _ _ _ _ I) as C. rewrite Hh in C.
  destruct (chainR_head _ _ _ C) as [fr' [q' [-> [Hl Ht]]]]. exists fr'. split; [reflexivity|].
  pose proof (lk_settled s b q' Hl U) as Hm. rewrite En in Hm. injection Hm as ->. cbn [as_ptr] in Eq. subst q'.
  change lost with ([] ++ lost). eapply x_take with (fr := b :: fr'); eauto.
Qed.

(** One event: nothing is followed that is not a block, and the invariant is kept. *)
Lemma x_happens : forall n lost fr s e, XInv n lost fr s -> allowed fresh_rule e s ->
  happens e s <> Crash /\ forall s', happens e s = Step s' -> exists fr', XInv n lost fr' s'.
Proof.
  intros n lost fr s [l|t t' b] I P; cbn [happens allowed] in *.
  2:{ destruct (holds s t b) eqn:Eh; (split; [discriminate|]); [|discriminate]. intros s' E. injection E as <-. exists fr. now apply x_give. }
  destruct l as [t|t|t|t sp|t b|t|t|t b v]; cbn [fresh_rule] in P; unfold cstep.
  - destruct (pcs s t) eqn:E; split; try discriminate. intros s' H. injection H as <-. exists fr.
    apply x_set_pc; auto; try discriminate. rewrite E; auto.
  - destruct (pcs s t) eqn:E; split; try discriminate. intros s' H. injection H as <-. exists fr. apply x_set_pc; auto.
    + rewrite E; auto.
    + destruct (chead s); simpl; auto.
    + intros p Hp. pose proof (x_chain _ _ _ _ I) as C. destruct fr as [|b fr']; simpl in C.
      * rewrite C in Hp. discriminate.
      * destruct C as [C _]. rewrite C in Hp. injection Hp as <-. exists b. split; [reflexivity|].
        apply (x_lt _ _ _ _ I). left. now left.
    + intros p q Hp. destruct (chead s); discriminate.
  - destruct (pcs s t) as [| |p| | |] eqn:E; try (split; discriminate).
    destruct (x_read _ _ _ _ I t p E) as [b [-> Hb]].
    destruct (nth_error (cmem s) b) as [c|] eqn:En; [|apply nth_error_None in En; rewrite (x_len _ _ _ _ I) in En; lia].
    split; [discriminate|]. intros s' H. injection H as <-. exists fr.
    apply x_set_pc; auto; [rewrite E; auto|discriminate|]. intros p q H. injection H as <- <-. eauto.
  - destruct (pcs s t) as [| | |p q| |] eqn:E; try (split; discriminate).
    destruct (x_cas _ _ _ _ I t p q E) as [b [-> Hb]].
    destruct (ptr_eqb (chead s) (At b) && negb sp) eqn:Ec; (split; [discriminate|]); intros s' H; injection H as <-.
    + apply andb_true_iff in Ec. destruct Ec as [Ec Es]. apply ptr_eqb_true in Ec. apply negb_true_iff in Es. subst sp.
      destruct (x_cas_fresh n lost fr s t b q I (conj E Ec) (P b q (conj E Ec))) as [fr' [_ I']]. eauto.
    + exists fr. apply x_set_pc; auto; try discriminate. rewrite E; auto.
  - destruct (pcs s t) eqn:E; try (split; discriminate). destruct (holds s t b) eqn:Eh; (split; [discriminate|]); try discriminate.
    intros s' H. injection H as <-. exists fr. now apply x_free.
  - destruct (pcs s t) eqn:E; try (split; discriminate). split; [discriminate|]. intros s' H. injection H as <-.
    eexists. apply x_put; eauto.
  - destruct (pcs s t) eqn:E; try (split; discriminate). destruct (x_do_link n lost fr s t b old I E) as [Hb I'].
    apply Nat.ltb_lt in Hb. rewrite Hb. split; [discriminate|]. intros s' H. injection H as <-. eauto.
  - destruct (pcs s t) eqn:E; try (split; discriminate).
    destruct (holds s t b) eqn:Eh; simpl; [|split; discriminate].
    destruct (Nat.ltb_spec b (length (cmem s))) as [Hb|Hb]; (split; [discriminate|]); try discriminate.
    intros s' H. injection H as <-. exists fr. eapply x_write; eauto.
Qed.

Lemma x_reach : forall n es s, 0 < n -> run_with fresh_rule (cinit n) es s -> exists fr, XInv n [] fr s.
Proof.
  intros n es s Hn R. remember (cinit n) as s0. induction R as [s|s ls s1 e s2 R IH P E]; subst.
  - exists (seq 0 n). apply x_of_w. now apply winit.
  - destruct (IH eq_refl) as [fr I]. destruct (x_happens n [] fr s1 e I P) as [_ H]. eauto.
Qed.

(** ** Without stale exchanges the pool is safe *)
Lemma x_null : forall n fr s, XInv n [] fr s ->
  (chead s = Null <-> forall b, b < n -> In b (held s) \/ exists t, pcs s t = DXchg b).
Proof.
  intros n fr s I. pose proof (x_chain _ _ _ _ I) as C. destruct fr as [|x fr]; simpl in C.
  - split; [|intros _; exact C]. intros _ b Hb. destruct (x_all _ _ _ _ I b Hb) as [[]|[[]|H]]. exact H.
  - destruct C as [C _]. split; [congruence|]. intro H. exfalso.
    assert (Hx : x < n) by (apply (x_lt _ _ _ _ I); left; now left).
    destruct (H x Hx) as [Hh|[t Ht]].
    + apply (proj2 (x_apart _ _ _ _ I x (or_introl eq_refl))). exact Hh.
    + apply (proj2 (x_xchg _ _ _ _ I t x Ht)). left. now left.
Qed.

Lemma x_count : forall n fr s, XInv n [] fr s -> (forall t b, pcs s t <> DXchg b) -> length fr + length (held s) = n.
Proof.
  intros n fr s I H. rewrite <- app_length.
  replace n with (length (seq 0 n)) by apply seq_length. apply Permutation_length.
  apply NoDup_Permutation; [|apply seq_NoDup|].
  - apply nodup_app_iff. split; [apply (x_fr _ _ _ _ I)|]. split; [apply (x_held _ _ _ _ I)|]. intros x Hx. now apply (x_apart _ _ _ _ I).
  - intros x. rewrite in_seq, in_app_iff. split; intros Hx.
    + assert (x < n) by (apply (x_lt _ _ _ _ I); tauto). lia.
    + destruct (x_all _ _ _ _ I x ltac:(lia)) as [Hy|[[]|[Hy|[t Hy]]]]; auto. exfalso. now apply (H t x).
Qed.

(** Thread [t] allocates without interruption. *)
Definition taken (s : cstate) (t c : nat) (x : cell) : cstate :=
  CState (cmem s) (as_ptr x)
    (upd (pcs (set_pc (set_pc (set_pc s t ALoad) t (ARead (At c))) t (ACas (At c) (as_ptr x)))) t Idle)
    ((t, c) :: holders s) (S (pops s)).

Lemma solo_alloc : forall s t c x, pcs s t = Idle -> chead s = At c -> nth_error (cmem s) c = Some x ->
  crun [LStartAlloc t; LLoad t; LRead t; LCas t false] s = Step (taken s t c x).
Proof.
  intros s t c x Et Hh En. cbn [crun]. unfold cstep at 1. rewrite Et. unfold cstep at 1. cbn [set_pc pcs chead]. rewrite upd_same, Hh.
  unfold cstep at 1. cbn [set_pc pcs cmem]. rewrite upd_same, En. unfold cstep at 1. cbn [set_pc pcs chead]. rewrite upd_same, Hh.
  cbn [ptr_eqb]. rewrite Nat.eqb_refl. reflexivity.
Qed.

Lemma taken_pcs : forall s t c x u, pcs s t = Idle -> pcs (taken s t c x) u = pcs s u.
Proof.
  intros s t c x u Et. cbn [taken pcs set_pc]. destruct (Nat.eq_dec u t) as [->|N]; [now rewrite upd_same|].
  now rewrite !upd_other.
Qed.

Lemma solo_fresh : forall s t c x, pcs s t = Idle -> chead s = At c -> nth_error (cmem s) c = Some x ->
  (forall u, ~ unlinked (pcs s u) c) -> exists es, run_with fresh_rule s es (taken s t c x).
Proof.
  intros s t c x Et Hh En Hu. exists (map Do [LStartAlloc t; LLoad t; LRead t; LCas t false]). cbn [map].
  set (s1 := set_pc s t ALoad). set (s2 := set_pc s1 t (ARead (At c))). set (s3 := set_pc s2 t (ACas (At c) (as_ptr x))).
  assert (E0 : cstep (LStartAlloc t) s = Step s1) by (unfold cstep; now rewrite Et).
  assert (E1 : cstep (LLoad t) s1 = Step s2) by (unfold cstep, s1; cbn [set_pc pcs chead]; rewrite upd_same, Hh; reflexivity).
  assert (E2 : cstep (LRead t) s2 = Step s3) by (unfold cstep, s2; cbn [set_pc pcs cmem s1]; rewrite upd_same, En; reflexivity).
  assert (E3 : cstep (LCas t false) s3 = Step (taken s t c x)).
  { unfold cstep, s3. cbn [set_pc pcs chead s2 s1]. rewrite upd_same, Hh. cbn [ptr_eqb]. rewrite Nat.eqb_refl. reflexivity. }
  eapply run_cons; [exact Logic.I|exact E0|]. eapply run_cons; [exact Logic.I|exact E1|]. eapply run_cons; [exact Logic.I|exact E2|].
  eapply run_cons; [|exact E3|constructor]. cbn [allowed fresh_rule]. intros b q [Hp Hc].
  unfold s3 in Hp. cbn [set_pc pcs] in Hp. rewrite upd_same in Hp. injection Hp as <- <-. split.
  - intros u [q E]. apply (Hu u). exists q. unfold s3, s2, s1 in E. cbn [set_pc pcs] in E.
    destruct (Nat.eq_dec u t) as [->|N]; [rewrite upd_same in E; discriminate E|]. now rewrite !upd_other in E.
  - exists x. split; [exact En|reflexivity].
Qed.

Lemma x_taken : forall n lost fr s t c x, XInv n lost (c :: fr) s -> pcs s t = Idle -> chead s = At c -> nth_error (cmem s) c = Some x ->
  (forall u, ~ unlinked (pcs s u) c) -> XInv n lost fr (taken s t c x).
Proof.
  intros n lost fr s t c x I Et Hh En Hu.
  assert (Hc : c < n) by (apply (x_lt _ _ _ _ I); left; now left).
  set (s3 := set_pc (set_pc (set_pc s t ALoad) t (ARead (At c))) t (ACas (At c) (as_ptr x))).
  assert (I3 : XInv n lost (c :: fr) s3).
  { unfold s3. apply x_set_pc; [apply x_set_pc; [apply x_set_pc; [exact I|rewrite Et; auto|..]|..]|..];
      cbn [set_pc pcs]; rewrite ?upd_same; auto; try discriminate.
    - intros p Ep. injection Ep as <-. eauto.
    - intros p q Ep. injection Ep as <- _. eauto. }
  assert (U3 : forall u, ~ unlinked (pcs s3 u) c).
  { intros u [q E]. apply (Hu u). exists q. unfold s3 in E. cbn [set_pc pcs] in E.
    destruct (Nat.eq_dec u t) as [->|N]; [rewrite upd_same in E; discriminate E|]. now rewrite !upd_other in E. }
  destruct (x_cas_fresh n lost (c :: fr) s3 t c (as_ptr x) I3) as (fr' & Ef & I').
  - split; [unfold s3; cbn [set_pc pcs]; apply upd_same|exact Hh].
  - split; [exact U3|]. exists x. split; [exact En|reflexivity].
  - injection Ef as <-. exact I'.
Qed.

Lemma x_safe : forall n fr s, XInv n [] fr s -> pool_safe fresh_rule n s.
Proof.
  intros n fr s I. pose proof (x_held _ _ _ _ I) as X1.
  assert (X2 : forall b, In b (held s) -> b < n) by (intros b Hb; apply (x_lt _ _ _ _ I); auto).
  constructor; auto.
  - intros e A. apply (proj1 (x_happens n [] fr s e I A)).
  - intros t b v Et Eh. assert (Hb : b < n) by (apply X2; apply in_map_iff; exists (t, b); split; [reflexivity|now apply holds_in]).
    eexists. unfold cstep. rewrite Et, Eh. rewrite <- (x_len _ _ _ _ I) in Hb. rewrite (proj2 (Nat.ltb_lt _ _) Hb). cbn [andb].
    split; [reflexivity|]. cbn [cmem]. rewrite replace_nth_error by exact Hb. now rewrite Nat.eqb_refl.
  - intros [l|t t' x] s' b A Hb E W; cbn [happens] in E.
    2:{ destruct (holds s t x); [|discriminate E]. injection E as <-. reflexivity. }
    destruct l as [t|t|t|t sp|t x|t|t|t x v]; unfold cstep in E; destruct (pcs s t) as [| |p|p q|y|y old] eqn:Ep; try discriminate E.
    + injection E as <-. reflexivity.
    + injection E as <-. reflexivity.
    + destruct p as [|a|]; try discriminate E. destruct (nth_error (cmem s) a); [|discriminate E]. injection E as <-. reflexivity.
    + destruct p as [|a|]; try discriminate E. destruct (_ && _); injection E as <-; reflexivity.
    + destruct (holds s t x); [|discriminate E]. injection E as <-. reflexivity.
    + injection E as <-. reflexivity.
    + destruct (Nat.ltb_spec y (length (cmem s))) as [Hy|]; [|discriminate E]. injection E as <-. cbn [cmem].
      rewrite replace_nth_error by exact Hy. destruct (Nat.eqb_spec b y) as [->|]; [|reflexivity].
      exfalso. destruct (x_link _ _ _ _ I t y old Ep) as [H|[]]. now apply (proj2 (x_apart _ _ _ _ I y H)).
    + destruct (holds s t x); cbn [andb] in E; [|discriminate E].
      destruct (Nat.ltb_spec x (length (cmem s))) as [Hx|]; [|discriminate E]. injection E as <-. cbn [cmem].
      rewrite replace_nth_error by exact Hx. destruct (Nat.eqb_spec b x) as [->|]; [|reflexivity]. exfalso. now apply (W t v).
  - intros t Et. eexists. unfold cstep. rewrite Et. split; [reflexivity|]. cbn [set_pc pcs]. rewrite upd_same.
    rewrite <- (x_null n fr s I). destruct (chead s); split; congruence.
  - intros l s' E A D.
    destruct l as [t|t|t|t sp|t b|t|t|t b v]; cbn [thread_of] in *; unfold cstep in E; destruct (pcs s t) as [| |p|p q|x|x old] eqn:Ep;
      try discriminate E; try (now destruct A).
    + injection E as <-. right. apply (x_null n fr s I). cbn [set_pc pcs] in D. rewrite upd_same in D. destruct (chead s); congruence.
    + destruct p as [|b|z]; try discriminate E. destruct (nth_error (cmem s) b); [|discriminate E]. injection E as <-.
      cbn [set_pc pcs] in D. rewrite upd_same in D. discriminate D.
    + destruct p as [|b|z]; try discriminate E. destruct (_ && _); injection E as <-.
      * left. exists b. reflexivity.
      * cbn [set_pc pcs] in D. rewrite upd_same in D. discriminate D.
  - intros t Q Et Hl.
    assert (HX : forall t' b, pcs s t' <> DXchg b) by (intros t' b C; apply (Q t'); rewrite C; exact Logic.I).
    pose proof (x_count n fr s I HX) as Hc. pose proof (x_chain _ _ _ _ I) as C.
    destruct fr as [|b fr']; [simpl in Hc; lia|]. destruct C as [Hh [q [L C]]].
    assert (En : nth_error (cmem s) b = Some (CNext q)).
    { apply lk_settled; [exact L|]. intros t' [y E]. apply (Q t'). rewrite E. exact Logic.I. }
    exists b, (taken s t b (CNext q)). split; [now apply solo_alloc|]. split; [reflexivity|]. split; [rewrite taken_pcs; auto|].
    split; [apply (x_apart _ _ _ _ I); now left|]. apply (x_lt _ _ _ _ I). left. now left.
Qed.

Lemma fresh_safe : forall n s, 0 < n -> reachable_with fresh_rule n s -> pool_safe fresh_rule n s.
Proof. intros n s Hn [es R]. destruct (x_reach n es s Hn R) as [fr I]. now apply (x_safe n fr). Qed.

(** ** One stale exchange is enough *)
Lemma run_app : forall ok s es s1 es' s2, run_with ok s es s1 -> run_with ok s1 es' s2 -> run_with ok s (es ++ es') s2.
Proof.
  intros ok s es s1 es' s2 R R'. induction R' as [x|x ls x1 l x2 R' IH P E]; [now rewrite app_nil_r|].
  rewrite app_assoc. econstructor; eauto.
Qed.

(** Thread [t] takes what is in the list, one block after the other; threads that have to link them do so first. *)
Lemma drain : forall fr n lost s t, XInv n lost fr s -> pcs s t = Idle ->
  exists es s', run_with fresh_rule s es s' /\ XInv n lost [] s' /\ pcs s' t = Idle /\
    forall u b q, pcs s' u = DLink b q -> pcs s u = DLink b q.
Proof.
  induction fr as [|b fr IH]; intros n lost s t I Et; [exists [], s; split; [constructor|auto]|].
  assert (A : exists es s', run_with fresh_rule s es s' /\ XInv n lost (b :: fr) s' /\ pcs s' t = Idle /\
    (forall u x q, pcs s' u = DLink x q -> pcs s u = DLink x q) /\ forall u, ~ unlinked (pcs s' u) b).
  { pose proof (x_chain _ _ _ _ I) as C. destruct C as [_ [q [L _]]]. destruct L as [[u E]|[_ H]].
    - destruct (x_do_link n lost (b :: fr) s u b q I E) as [Hb I']. exists [Do (LLink u)]. eexists. split; [|split; [exact I'|split; [|split]]].
      + eapply run_cons; [exact Logic.I| |constructor]. cbn [happens]. unfold cstep. rewrite E. apply Nat.ltb_lt in Hb. rewrite Hb. reflexivity.
      + cbn [pcs]. destruct (Nat.eq_dec t u) as [->|N]; [apply upd_same|now rewrite upd_other].
      + intros v x z Ez. cbn [pcs] in Ez. at_thread u (pcs s) Idle v Ez; [discriminate Ez|exact Ez].
      + intros v [z Ez]. cbn [pcs] in Ez. at_thread u (pcs s) Idle v Ez; [discriminate Ez|]. apply N. eapply (x_link2 _ _ _ _ I); eauto.
    - exists [], s. split; [constructor|]. split; [exact I|]. split; [exact Et|]. split; [auto|]. intros u [z Ez]. now apply (H u z). }
  destruct A as (es & s1 & R1 & I1 & Et1 & K1 & Hu).
  pose proof (x_chain _ _ _ _ I1) as C. destruct C as [Hh [q [L _]]]. pose proof (lk_settled s1 b q L Hu) as En.
  destruct (solo_fresh s1 t b (CNext q) Et1 Hh En Hu) as [es2 R2].
  destruct (IH n lost (taken s1 t b (CNext q)) t) as (es3 & s3 & R3 & I3 & Et3 & K3).
  - now apply x_taken.
  - now rewrite taken_pcs.
  - exists (es ++ es2 ++ es3), s3. split; [eapply run_app; [exact R1|eapply run_app; eauto]|]. split; [exact I3|]. split; [exact Et3|].
    intros u x z E. apply K1. rewrite <- (taken_pcs s1 t b (CNext q) u Et1). now apply K3.
Qed.

Lemma lost_harms0 : forall n d lost fr s t, XInv n (d :: lost) fr s -> (forall u q, pcs s u <> DLink d q) -> pcs s t = Idle ->
  exists es s', run_with fresh_rule s es s' /\ harm n s'.
Proof.
  intros n d lost fr s t I Hd Et. destruct (drain fr n (d :: lost) s t I Et) as (es & s1 & R & I1 & Et1 & K).
  exists (es ++ [Do (LStartAlloc t)]), (set_pc s1 t ALoad). split.
  - econstructor; [exact R|exact Logic.I|]. cbn [happens]. unfold cstep. now rewrite Et1.
  - apply (harm_lost n _ t d).
    + cbn [set_pc pcs]. apply upd_same.
    + pose proof (x_chain _ _ _ _ I1) as C. exact C.
    + apply (x_lt _ _ _ _ I1). right. left. now left.
    + apply (x_apart2 _ _ _ _ I1). now left.
    + intros u q. cbn [set_pc pcs]. split; intro E; at_thread t (pcs s1) ALoad u E; try discriminate E.
      * apply (proj2 (x_xchg _ _ _ _ I1 u d E)). right. left. now left.
      * apply (Hd u q). now apply K.
Qed.

Lemma lost_harms : forall n d lost fr s t, XInv n (d :: lost) fr s -> ((exists u q, pcs s u = DLink d q) \/ forall u q, pcs s u <> DLink d q) ->
  pcs s t = Idle -> exists es s', run_with fresh_rule s es s' /\ harm n s'.
Proof.
  intros n d lost fr s t I [(u & q & E)|Hd] Et; [|now apply (lost_harms0 n d lost fr s t)].
  destruct (x_do_link n (d :: lost) fr s u d q I E) as [Hb I'].
  edestruct (lost_harms0 n d lost fr _ t I') as (es & s2 & R & H).
  - intros v z Ez. cbn [pcs] in Ez. at_thread u (pcs s) Idle v Ez; [discriminate Ez|]. apply N. eapply (x_link2 _ _ _ _ I); eauto.
  - cbn [pcs]. destruct (Nat.eq_dec t u) as [->|N]; [apply upd_same|now rewrite upd_other].
  - exists (Do (LLink u) :: es), s2. split; [|exact H]. eapply run_cons; [exact Logic.I| |exact R].
    cbn [happens]. unfold cstep. rewrite E. apply Nat.ltb_lt in Hb. now rewrite Hb.
Qed.

Lemma chainR_mid : forall R l h c, chainR R h l -> In c l -> exists l1 l2, l = l1 ++ c :: l2 /\ chainR R (At c) (c :: l2).
Proof.
  intros R l. induction l as [|x l IH]; intros h c C Hi; [destruct Hi|]. destruct Hi as [->|Hi].
  - exists [], l. destruct C as [-> C]. split; [reflexivity|split; [reflexivity|exact C]].
  - destruct C as [_ [q [_ C]]]. destruct (IH q c C Hi) as (l1 & l2 & -> & C2). exists (x :: l1), l2. split; [reflexivity|exact C2].
Qed.

Lemma link_known : forall s h l d, chainR (lk s) h l -> In d l -> (exists u q, pcs s u = DLink d q) \/ forall u q, pcs s u <> DLink d q.
Proof.
  intros s h l d C Hi. destruct (chainR_mid _ _ _ _ C Hi) as (l1 & l2 & _ & [_ [q [[[u E]|[_ H]] _]]]); [left; eauto|right; exact H].
Qed.

Lemma stale_harms : forall n es s t s1, 0 < n -> run_with fresh_rule (cinit n) es s -> stale s t -> cstep (LCas t false) s = Step s1 ->
  exists es' s2, run_with fresh_rule s1 es' s2 /\ harm n s2.
Proof.
  intros n es s t s1 Hn R (b & q & [Ep Hh] & Hs) E. destruct (x_reach n es s Hn R) as [fr I].
  unfold cstep in E. rewrite Ep, Hh in E. cbn [ptr_eqb] in E. rewrite Nat.eqb_refl in E. cbn [negb andb] in E. injection E as <-.
  set (s1 := CState (cmem s) q (upd (pcs s) t Idle) ((t, b) :: holders s) (S (pops s))).
  assert (Et : pcs s1 t = Idle) by (cbn [s1 pcs]; apply upd_same).
  pose proof (x_chain _ _ _ _ I) as C. rewrite Hh in C. destruct (chainR_head _ _ _ C) as [L [q0 [-> [Hl Ht]]]].
  assert (Hb : b < n) by (apply (x_lt _ _ _ _ I); left; now left).
  assert (Hbl : b < length (cmem s)) by (rewrite (x_len _ _ _ _ I); exact Hb).
  destruct Hl as [[u E]|[En Hu]].
  - (* its link is still to be made *)
    exists [Do (LWrite t b 7%Z)]. eexists. split.
    + eapply run_cons; [exact Logic.I| |constructor]. cbn [happens]. unfold cstep. rewrite Et. unfold holds. cbn [s1 holders cmem existsb].
      rewrite !Nat.eqb_refl. cbn [orb andb]. rewrite (proj2 (Nat.ltb_lt _ _) Hbl). reflexivity.
    + apply (harm_data n _ u t b q0 7%Z); cbn [s1 pcs cmem].
      * rewrite upd_other; [exact E|]. intros ->. congruence.
      * unfold holds. cbn [s1 holders existsb]. now rewrite !Nat.eqb_refl.
      * rewrite replace_nth_error by exact Hbl. now rewrite Nat.eqb_refl.
  - assert (U : forall v, ~ unlinked (pcs s v) b) by (intros v [z Ez]; now apply (Hu v z)).
    assert (U1 : forall v x, ~ unlinked (pcs s v) x -> ~ unlinked (pcs s1 v) x).
    { intros v x H [z Ez]. cbn [s1 pcs] in Ez. at_thread t (pcs s) Idle v Ez; [discriminate Ez|]. apply H. now exists z. }
    assert (Nq : q <> q0). { intros ->. apply Hs. split; [exact U|]. exists (CNext q0). split; [exact En|reflexivity]. }
    assert (Lost : forall d skip fr', L = d :: skip ++ fr' -> chainR (lk s) q fr' -> exists es' s2, run_with fresh_rule s1 es' s2 /\ harm n s2).
    { intros d skip fr' EL Cq. apply (lost_harms n d (skip ++ []) fr' s1 t).
      - apply (x_take n [] (b :: L) s t b q (d :: skip) fr' I); eauto. now rewrite EL.
      - destruct (link_known s q0 L d Ht) as [(u & z & E)|H].
        + rewrite EL. now left.
        + left. exists u, z. cbn [s1 pcs]. rewrite upd_other; [exact E|]. intros ->. congruence.
        + right. intros u z Ez. cbn [s1 pcs] in Ez. at_thread t (pcs s) Idle u Ez; [discriminate Ez|]. now apply (H u z).
      - exact Et. }
    assert (Bad : (forall c, q = At c -> n <= c) -> q <> Null -> exists es' s2, run_with fresh_rule s1 es' s2 /\ harm n s2).
    { intros Hq Hz. exists (map Do [LStartAlloc t; LLoad t]). eexists (set_pc (set_pc s1 t ALoad) t (ARead q)). split.
      - cbn [map]. eapply run_cons; [exact Logic.I| |eapply run_cons; [exact Logic.I| |constructor]]; cbn [happens]; unfold cstep.
        + rewrite Et. reflexivity.
        + cbn [set_pc pcs chead]. rewrite upd_same. cbn [s1 chead]. destruct q; [congruence|reflexivity|reflexivity].
      - apply (harm_pointer n _ t). unfold cstep. cbn [set_pc pcs cmem]. rewrite upd_same. cbn [s1 cmem].
        destruct q as [|c|z]; [congruence| |reflexivity]. specialize (Hq c eq_refl).
        destruct (nth_error (cmem s) c) eqn:Ec; [|reflexivity]. exfalso.
        assert (c < length (cmem s)) by (apply nth_error_Some; congruence). rewrite (x_len _ _ _ _ I) in H. lia. }
    destruct q as [|c|z]; [| |apply Bad; congruence].
    + destruct L as [|d L']; [simpl in Ht; congruence|]. apply (Lost d L' []); [now rewrite app_nil_r|reflexivity].
    + destruct (Nat.lt_ge_cases c n) as [Hc|Hc]; [|apply Bad; [|discriminate]; intros x Ex; injection Ex as <-; exact Hc].
      assert (Hcl : c < length (cmem s)) by (rewrite (x_len _ _ _ _ I); exact Hc).
      destruct (nth_error (cmem s) c) as [x|] eqn:Ec; [|apply nth_error_None in Ec; lia].
      assert (Take : (forall v, ~ unlinked (pcs s v) c) -> exists es', run_with fresh_rule s1 es' (taken s1 t c x)).
      { intro H. apply solo_fresh; auto. }
      assert (Two : In c (b :: held s) -> (forall v, ~ unlinked (pcs s v) c) -> exists es' s2, run_with fresh_rule s1 es' s2 /\ harm n s2).
      { intros Hi H. destruct (Take H) as [es' R']. exists es', (taken s1 t c x). split; [exact R'|]. apply harm_shared.
        unfold held. cbn [taken holders s1 map snd]. intro ND. apply NoDup_cons_iff in ND. now destruct ND. }
      destruct (x_all _ _ _ _ I c Hc) as [[<-|Hi]|[[]|[Hi|[u E]]]].
      * apply Two; [now left|exact U].
      * destruct (chainR_mid _ _ _ _ Ht Hi) as (l1 & l2 & EL & C2). destruct l1 as [|d l1].
        -- exfalso. cbn [app] in EL. rewrite EL in Ht. destruct Ht as [Ht _]. congruence.
        -- now apply (Lost d l1 (c :: l2)).
      * apply Two; [now right|]. intros v [z Ez]. destruct (x_link _ _ _ _ I v c z Ez) as [H|[]].
        now apply (proj2 (x_apart _ _ _ _ I c H)).
      * (* it is on its way back, and is taken before it is there *)
        destruct Take as [es' R'].
        { intros v [z Ez]. destruct (x_link _ _ _ _ I v c z Ez) as [H|[]]. apply (proj2 (x_xchg _ _ _ _ I u c E)). now left. }
        set (s2 := taken s1 t c x) in *.
        assert (Et2 : pcs s2 t = Idle) by (unfold s2; rewrite taken_pcs; auto).
        assert (Eu2 : pcs s2 u = DXchg c).
        { unfold s2. rewrite taken_pcs by exact Et. cbn [s1 pcs]. rewrite upd_other; [exact E|]. intros ->. congruence. }
        exists (es' ++ [Do (LWrite t c 7%Z)] ++ [Do (LXchg u)]). eexists. split.
        -- eapply run_app; [exact R'|]. cbn [app]. eapply run_cons; [exact Logic.I| |eapply run_cons; [exact Logic.I| |constructor]]; cbn [happens].
           ++ unfold cstep. rewrite Et2. unfold holds. cbn [s2 taken s1 holders cmem existsb].
              rewrite !Nat.eqb_refl. cbn [orb andb]. rewrite (proj2 (Nat.ltb_lt _ _) Hcl). reflexivity.
           ++ unfold cstep. cbn [pcs]. rewrite Eu2. reflexivity.
        -- apply (harm_data n _ u t c (chead s2) 7%Z); cbn [pcs cmem holders].
           ++ rewrite upd_same. reflexivity.
           ++ unfold holds. cbn [s2 taken holders existsb]. now rewrite !Nat.eqb_refl.
           ++ rewrite replace_nth_error by exact Hcl. now rewrite Nat.eqb_refl.
Qed.

Lemma harm_unsafe : forall n s, harm n s -> ~ pool_safe fresh_rule n s.
Proof.
  intros n s [N|t E|t u b q v E Eh En|t b Et Hh Hb Hf Hu] P.
  - apply N, (safe_exclusive _ _ _ P).
  - apply (safe_pointers _ _ _ P (Do (LRead t)) Logic.I E).
  - assert (Hb : b < length (cmem s)) by (apply nth_error_Some; congruence).
    assert (X : happens (Do (LLink t)) s = Step (CState (replace_nth b (CNext q) (cmem s)) (chead s) (upd (pcs s) t Idle) (holders s) (pops s))).
    { cbn [happens]. unfold cstep. rewrite E. now rewrite (proj2 (Nat.ltb_lt _ _) Hb). }
    assert (Hi : In b (held s)) by (apply in_map_iff; exists (u, b); split; [reflexivity|now apply holds_in]).
    pose proof (safe_data _ _ _ P (Do (LLink t)) _ b Logic.I Hi X ltac:(intros; discriminate)) as D. cbn [cmem] in D.
    rewrite replace_nth_error, Nat.eqb_refl, En in D by exact Hb. discriminate D.
  - destruct (safe_refusal _ _ _ P t Et) as (s' & E & [H _]). unfold cstep in E. rewrite Et, Hh in E. injection E as <-.
    cbn [set_pc pcs] in H. rewrite upd_same in H. destruct (H eq_refl b Hb) as [C|[u C]]; [now apply Hf|]. now apply (proj1 (Hu u Null)).
Qed.

(** ** The rules of C112 to C116 leave no room for stale exchanges *)
Lemma w_fresh : forall n fr s e, WInv n fr s -> allowed fresh_rule e s.
Proof.
  intros n fr s [l|t t' b] I; [|exact Logic.I]. cbn [allowed].
  destruct l as [t|t|t|t [|]|t b|t|t|t b v]; cbn [fresh_rule]; auto. intros b q [Ep Hh].
  destruct (wi_cas _ _ _ I t _ q Ep) as (b' & Eb & Hb & H). injection Eb as <-.
  pose proof (wi_chain _ _ _ I) as C. rewrite Hh in C. destruct (chainR_head _ _ _ C) as [L [q0 [-> _]]].
  destruct (H (or_introl eq_refl)) as [En U]. split; [exact U|]. exists (CNext q). split; [exact En|reflexivity].
Qed.

Lemma hazard_fresh : forall n es s, 0 < n -> run_with hazard_rule (cinit n) es s -> run_with fresh_rule (cinit n) es s.
Proof.
  intros n es s Hn R. remember (cinit n) as s0. induction R as [s|s es s1 e s2 R IH P E]; subst; [constructor|].
  econstructor; [now apply IH| |exact E].
  destruct (hazard_inv n s1 Hn (ex_intro _ es R)) as [fr I]. eapply w_fresh; eauto.
Qed.

(** ** Exactly *)
Lemma stale_dec : forall n fr s t, XInv n [] fr s -> stale s t \/ allowed fresh_rule (Do (LCas t false)) s.
Proof.
  intros n fr s t I. cbn [allowed fresh_rule].
  assert (D : (exists b q, takes s t b q) \/ forall b q, ~ takes s t b q).
  { unfold takes. destruct (pcs s t) as [| |p|p q|b|b q]; try (right; intros b' q' [H _]; discriminate H).
    destruct p as [|b|z]; try (right; intros b' q' [H _]; discriminate H).
    destruct (ptr_eqb (chead s) (At b)) eqn:E.
    - left. exists b, q. split; [reflexivity|now apply ptr_eqb_true].
    - right. intros b' q' [H H']. injection H as -> ->. rewrite H' in E. cbn [ptr_eqb] in E. rewrite Nat.eqb_refl in E. discriminate E. }
  destruct D as [(b & q & [Ep Hh])|N]; [|right; intros b q T; now destruct (N b q)].
  pose proof (x_chain _ _ _ _ I) as C. rewrite Hh in C. destruct (chainR_head _ _ _ C) as [L [q0 [-> [Hl _]]]].
  destruct Hl as [[u E]|[En Hu]].
  - left. exists b, q. split; [now split|]. intros [U _]. apply (U u). now exists q0.
  - assert (P : {q0 = q} + {q0 <> q}) by (decide equality; [apply Nat.eq_dec|apply Z.eq_dec]). destruct P as [->|P].
    + right. intros b' q' [Ep' _]. rewrite Ep in Ep'. injection Ep' as <- <-. split; [intros v [z Ez]; now apply (Hu v z)|].
      exists (CNext q). split; [exact En|reflexivity].
    + left. exists b, q. split; [now split|]. intros [_ (c & Ec & Eq)]. rewrite En in Ec. injection Ec as <-. now apply P.
Qed.

Lemma fresh_or_stale : forall n fr s e, XInv n [] fr s -> (exists t, e = Do (LCas t false) /\ stale s t) \/ allowed fresh_rule e s.
Proof.
  intros n fr s [l|t t' b] I; [|now right]. destruct l as [t|t|t|t [|]|t b|t|t|t b v]; try (right; exact Logic.I).
  destruct (stale_dec n fr s t I) as [H|H]; [left; eauto|now right].
Qed.

(** The first stale exchange of an execution. *)
Lemma first_stale : forall n es s, 0 < n -> run_with (fun _ _ => True) (cinit n) es s ->
  run_with fresh_rule (cinit n) es s \/
  exists es1 t es2 s1, es = es1 ++ Do (LCas t false) :: es2 /\ run_with fresh_rule (cinit n) es1 s1 /\ stale s1 t.
Proof.
  intros n es s Hn R. remember (cinit n) as s0. induction R as [s|s es s1 e s2 R IH P E]; subst; [left; constructor|].
  destruct (IH eq_refl) as [F|(es1 & t & es2 & s' & -> & F & T)].
  - destruct (x_reach n es s1 Hn F) as [fr I]. destruct (fresh_or_stale n fr s1 e I) as [(t & -> & T)|A].
    + right. exists es, t, [], s1. auto.
    + left. econstructor; eauto.
  - right. exists es1, t, (es2 ++ [e]), s'. split; [|auto]. now rewrite <- app_assoc.
Qed.

(** Checking the rule by evaluation. *)
Definition freshb (k : nat) (l : label) (s : cstate) : bool :=
  match l with
  | LCas t false =>
      match pcs s t with
      | ACas (At b) q =>
          negb (ptr_eqb (chead s) (At b)) ||
          (forallb (fun t' => negb (unlinkedb (pcs s t') b)) (seq 0 k) &&
           match nth_error (cmem s) b with Some c => ptr_eqb (as_ptr c) q | None => false end)
      | _ => true
      end
  | _ => true
  end.
Lemma freshb_ok : forall k l s, idle_from k s -> freshb k l s = true -> fresh_rule l s.
Proof.
  intros k l s Hi H. destruct l as [t|t|t|t [|]|t b|t|t|t b v]; cbn [fresh_rule]; auto. intros b q [Ep Hh]. cbn [freshb] in H.
  rewrite Ep, Hh in H. cbn [ptr_eqb] in H. rewrite Nat.eqb_refl in H. cbn [negb orb] in H. apply andb_true_iff in H. destruct H as [H1 H2]. split.
  - intros u [z Ez]. destruct (all_threads k s _ u H1 Hi) as [F|F]; [|congruence]. cbn beta in F. rewrite Ez in F. cbn [unlinkedb] in F.
    rewrite Nat.eqb_refl in F. discriminate F.
  - destruct (nth_error (cmem s) b) as [c|]; [|discriminate H2]. exists c. split; [reflexivity|now apply ptr_eqb_true].
Qed.
