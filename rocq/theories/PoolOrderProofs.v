(** Proofs for C164. *)
From Coq Require Import ZArith Bool List Arith Lia Permutation Relations.
From Verif Require Import Outcome CanFrameModel CanFrameProofs PoolModel PoolSpec PoolProofs PoolConcModel PoolConcSpec PoolConcProofs
  PoolUseSpec PoolUseProofs PoolFreshSpec PoolFreshProofs PoolOrderModel PoolOrderSpec.
Import ListNotations.
Open Scope nat_scope.

(** ** What a thread knows *)

(** [i] is over for thread [t]. *)
Definition known (tr : list action) (t i : nat) : Prop :=
  exists j c, nth_error tr j = Some c /\ over_for c t /\ (i = j \/ happens_before tr i j).
(** [i] will be over for whoever accesses free_list_ next. *)
Definition public (tr : list action) (i : nat) : Prop :=
  exists j t, nth_error tr j = Some (Atomic t true) /\ (i = j \/ happens_before tr i j).

Lemma nth_snoc : forall (tr : list action) a i c, nth_error (tr ++ [a]) i = Some c ->
  (i < length tr /\ nth_error tr i = Some c) \/ (i = length tr /\ a = c).
Proof.
  intros tr a i c H. destruct (Nat.lt_ge_cases i (length tr)) as [L|L].
  - left. now rewrite nth_error_app1 in H.
  - right. rewrite nth_error_app2 in H by exact L. destruct (i - length tr) as [|k] eqn:E; cbn in H.
    + split; [lia|congruence].
    + destruct k; discriminate.
Qed.
Lemma nth_old : forall (tr : list action) a i c, nth_error tr i = Some c -> nth_error (tr ++ [a]) i = Some c.
Proof. intros tr a i c H. rewrite nth_error_app1; [exact H|]. apply nth_error_Some. congruence. Qed.
Lemma nth_new : forall (tr : list action) a, nth_error (tr ++ [a]) (length tr) = Some a.
Proof. intros tr a. now rewrite nth_error_app2, Nat.sub_diag. Qed.
Lemma nth_lt : forall (tr : list action) i c, nth_error tr i = Some c -> i < length tr.
Proof. intros tr i c H. apply nth_error_Some. congruence. Qed.

Lemma before_old : forall tr a i j, before tr i j -> before (tr ++ [a]) i j.
Proof. intros tr a i j (L & x & c & E & F & H). split; [exact L|]. exists x, c. repeat split; auto using nth_old. Qed.
Lemma hb_old : forall tr a i j, happens_before tr i j -> happens_before (tr ++ [a]) i j.
Proof. intros tr a i j H. induction H as [i j B|i j k _ IH1 _ IH2]; [apply t_step; now apply before_old|eapply t_trans; eauto]. Qed.
Lemma hb_lt : forall tr i j, happens_before tr i j -> i < j /\ j < length tr.
Proof.
  intros tr i j H. induction H as [i j (L & x & c & _ & F & _)|i j k _ IH1 _ IH2]; [|lia]. split; [exact L|exact (nth_lt _ _ _ F)].
Qed.
Lemma hb_prefix : forall tr a i j, j < length tr -> happens_before (tr ++ [a]) i j -> happens_before tr i j.
Proof.
  intros tr a i j L H. induction H as [i j (B & x & c & E & F & H)|i j k _ IH1 H2 IH2].
  - apply t_step. split; [exact B|]. exists x, c. rewrite nth_error_app1 in E, F by lia. auto.
  - pose proof (proj1 (hb_lt _ _ _ H2)). eapply t_trans; [apply IH1; lia|exact (IH2 L)].
Qed.
Lemma known_old : forall tr a t i, known tr t i -> known (tr ++ [a]) t i.
Proof. intros tr a t i (j & c & E & O & [->|H]); exists j, c; (repeat split; [now apply nth_old|exact O|]); [now left|right; now apply hb_old]. Qed.
Lemma public_old : forall tr a i, public tr i -> public (tr ++ [a]) i.
Proof. intros tr a i (j & t & E & [->|H]); exists j, t; (split; [now apply nth_old|]); [now left|right; now apply hb_old]. Qed.
(** What the thread knows happens before what it does. *)
Lemma known_hb : forall tr a i, known tr (made_by a) i -> happens_before (tr ++ [a]) i (length tr).
Proof.
  intros tr a i (j & c & E & O & H).
  assert (S : happens_before (tr ++ [a]) j (length tr)).
  { apply t_step. split; [exact (nth_lt _ _ _ E)|]. exists c, a. repeat split; auto using nth_old, nth_new. }
  destruct H as [->|H]; [exact S|]. eapply t_trans; [apply hb_old; exact H|exact S].
Qed.
Lemma public_hb : forall tr t w i, public tr i -> happens_before (tr ++ [Atomic t w]) i (length tr).
Proof.
  intros tr t w i (j & u & E & H).
  assert (S : happens_before (tr ++ [Atomic t w]) j (length tr)).
  { apply t_step. split; [exact (nth_lt _ _ _ E)|]. exists (Atomic u true), (Atomic t w). repeat split; auto using nth_old, nth_new.
    right. exists u, t, w. auto. }
  destruct H as [->|H]; [exact S|]. eapply t_trans; [apply hb_old; exact H|exact S].
Qed.
Lemma hb_known : forall tr a t i, happens_before (tr ++ [a]) i (length tr) -> over_for a t -> known (tr ++ [a]) t i.
Proof. intros tr a t i H O. exists (length tr), a. repeat split; [apply nth_new|exact O|now right]. Qed.
Lemma own_known : forall tr a, known (tr ++ [a]) (made_by a) (length tr).
Proof. intros tr a. exists (length tr), a. repeat split; [apply nth_new|now left|now left]. Qed.
Lemma known_passed : forall tr t u i, known tr t i -> known (tr ++ [Pass t u]) u i.
Proof. intros tr t u i K. apply hb_known; [now apply known_hb|]. right. now exists t. Qed.
Lemma public_known : forall tr t w i, public tr i -> known (tr ++ [Atomic t w]) t i.
Proof. intros tr t w i P. apply hb_known; [now apply public_hb|now left]. Qed.
Lemma known_public : forall tr t i, known tr t i -> public (tr ++ [Atomic t true]) i.
Proof. intros tr t i K. exists (length tr), t. split; [apply nth_new|]. right. now apply (known_hb tr (Atomic t true)). Qed.

(** ** Holders *)
Lemma holds_iff : forall s t b, holds s t b = true <-> In (t, b) (holders s).
Proof.
  intros s t b. split; [apply holds_in|]. intro H. unfold holds. apply existsb_exists. exists (t, b). split; [exact H|]. cbn.
  now rewrite !Nat.eqb_refl.
Qed.
Lemma holds_held : forall s t b, holds s t b = true -> In b (held s).
Proof. intros s t b H. apply holds_iff in H. unfold held. apply in_map_iff. now exists (t, b). Qed.
Lemma in_drop : forall t b l u x, In (u, x) (drop t b l) <-> In (u, x) l /\ (u, x) <> (t, b).
Proof.
  intros t b l u x. unfold drop. rewrite filter_In. cbn [fst snd]. rewrite negb_true_iff, andb_false_iff, !Nat.eqb_neq. split; intros [H N]; (split; [exact H|]).
  - intro E. injection E as -> ->. destruct N; congruence.
  - destruct (Nat.eq_dec u t) as [->|]; [|now left]. right. intros ->. now apply N.
Qed.
Lemma held_iff : forall s b, In b (held s) <-> exists t, holds s t b = true.
Proof.
  intros s b. unfold held. rewrite in_map_iff. split.
  - intros ([t x] & E & H). cbn in E. subst x. exists t. now apply holds_iff.
  - intros [t H]. apply holds_iff in H. now exists (t, b).
Qed.

(** ** Executions *)
Lemma history_run : forall ok n tr s, history ok n tr s -> exists es, run_with ok (cinit n) es s.
Proof.
  intros ok n tr s H. induction H as [|tr s m s' _ [es IH] A D].
  - exists []. constructor.
  - destruct m as [e|t b|t t']; cbn [does] in D.
    + exists (es ++ [e]). econstructor; eauto.
    + destruct (pcs s t); try discriminate. destruct (holds s t b); [|discriminate]. injection D as <-. eauto.
    + injection D as <-. eauto.
Qed.
Lemma history_x : forall n tr s, 0 < n -> history fresh_rule n tr s -> exists fr, XInv n [] fr s.
Proof. intros n tr s Hn H. destruct (history_run _ _ _ _ H) as [es R]. now apply (x_reach n es). Qed.

(** Who has a block, or is bringing it back. *)
Definition has (s : cstate) (t b : nat) : Prop := holds s t b = true \/ pcs s t = DXchg b.
Lemma has_unique : forall n lost fr s t t' b, XInv n lost fr s -> has s t b -> has s t' b -> t = t'.
Proof.
  intros n lost fr s t t' b I [H|H] [H'|H'].
  - exact (holds_unique s t t' b (x_held _ _ _ _ I) H H').
  - exfalso. apply (proj2 (x_xchg _ _ _ _ I t' b H')). right. right. exact (holds_held _ _ _ H).
  - exfalso. apply (proj2 (x_xchg _ _ _ _ I t b H)). right. right. exact (holds_held _ _ _ H').
  - exact (x_xchg2 _ _ _ _ I t t' b H H').
Qed.

Lemma holds_set : forall s t c u b, holds (set_pc s t c) u b = holds s u b.
Proof. reflexivity. Qed.

(** Moves that take nothing and bring nothing. *)
Lemma has_set : forall s t c u b, (forall x, c <> DXchg x) -> has (set_pc s t c) u b -> has s u b.
Proof.
  intros s t c u b N [H|H]; [now left|]. cbn [set_pc pcs] in H. destruct (upd_cases (pcs s) t c u) as [[-> U]|[_ U]]; rewrite U in H.
  - now destruct (N b).
  - now right.
Qed.
Lemma has_set2 : forall s t c u b, (forall x, pcs s t <> DXchg x) -> has s u b -> has (set_pc s t c) u b.
Proof.
  intros s t c u b N [H|H]; [now left|]. right. cbn [set_pc pcs]. rewrite upd_other; [exact H|]. intros ->. now apply (N b).
Qed.

Definition passes (m : move) (s s' : cstate) : Prop :=
  (forall t b, has s' t b -> has s t b \/ (exists u, has s u b /\ action_of m s = Pass u t) \/
                             ((forall u, ~ has s u b) /\ chead s = At b /\ action_of m s = Atomic t true)) /\
  (forall b, (forall t, ~ has s' t b) -> (forall t, ~ has s t b) \/
                                         exists t, has s t b /\ pcs s t = DXchg b /\ action_of m s = Atomic t true).
Lemma same_passes : forall m s s', (forall t b, has s' t b <-> has s t b) -> passes m s s'.
Proof. intros m s s' H. split; [intros t b K; left; now apply H|]. intros b K. left. intros t X. apply (K t). now apply H. Qed.

Lemma move_passes : forall n fr s m s', XInv n [] fr s -> (forall e, m = Ev e -> allowed fresh_rule e s) -> does m s = Step s' -> passes m s s'.
Proof.
  intros n fr s m s' I A D. destruct m as [[l|t t' b]|t b|t t']; cbn [does happens] in D.
  - specialize (A _ eq_refl). cbn [allowed] in A. destruct l as [t|t|t|t sp|t b|t|t|t b v]; cbn [cstep] in D.
    + destruct (pcs s t) eqn:E; try discriminate. injection D as <-. apply same_passes. intros u b.
      split; [apply has_set; discriminate|apply has_set2; rewrite E; discriminate].
    + destruct (pcs s t) eqn:E; try discriminate. injection D as <-. apply same_passes. intros u b.
      split; [apply has_set; destruct (chead s); discriminate|apply has_set2; rewrite E; discriminate].
    + destruct (pcs s t) as [| |[|i|]| | |] eqn:E; try discriminate. destruct (nth_error (cmem s) i); [|discriminate]. injection D as <-.
      apply same_passes. intros u x. split; [apply has_set; discriminate|apply has_set2; rewrite E; discriminate].
    + destruct (pcs s t) as [| | |[|b|] q| |] eqn:E; try discriminate.
      destruct (ptr_eqb (chead s) (At b) && negb sp) eqn:Ec; injection D as <-.
      * pose proof Ec as Ec'. apply andb_true_iff in Ec'. destruct Ec' as [Ep Es]. apply ptr_eqb_true in Ep. apply negb_true_iff in Es. subst sp.
        destruct (x_cas_fresh _ _ _ _ _ _ _ I (conj E Ep) (A b q (conj E Ep))) as (fr' & -> & _).
        assert (Nb : forall u, ~ has s u b).
        { intros u [H|H]; [exact (proj2 (x_apart _ _ _ _ I b (or_introl eq_refl)) (holds_held _ _ _ H))|].
          apply (proj2 (x_xchg _ _ _ _ I u b H)). left. now left. }
        split.
        -- intros u x [H|H].
           ++ apply holds_iff in H. cbn [holders] in H. destruct H as [H|H].
              ** injection H as <- <-. right. right. cbn [action_of]. rewrite E, Ec. auto.
              ** left. left. now apply holds_iff.
           ++ cbn [pcs] in H. destruct (upd_cases (pcs s) t Idle u) as [[-> U]|[_ U]]; rewrite U in H; [discriminate|]. left. now right.
        -- intros x H. left. intros u K. destruct K as [K|K].
           ++ apply (H u). left. apply holds_iff. right. now apply holds_iff.
           ++ apply (H u). right. cbn [pcs]. rewrite upd_other; [exact K|]. intros ->. congruence.
      * apply same_passes. intros u x. split; [apply has_set; discriminate|apply has_set2; rewrite E; discriminate].
    + destruct (pcs s t) eqn:E; try discriminate. destruct (holds s t b) eqn:Eh; [|discriminate]. injection D as <-.
      apply same_passes. intros u x. split.
      * intros [H|H].
        -- apply holds_iff in H. cbn [holders] in H. apply in_drop in H. left. apply holds_iff. apply H.
        -- cbn [pcs] in H. destruct (upd_cases (pcs s) t (DXchg b) u) as [[-> U]|[_ U]]; rewrite U in H; [|now right].
           injection H as <-. now left.
      * intros [H|H].
        -- apply holds_iff in H. destruct (Nat.eq_dec u t) as [->|N].
           ++ destruct (Nat.eq_dec x b) as [->|N]; [right; cbn [pcs]; apply upd_same|]. left. apply holds_iff. cbn [holders]. apply in_drop.
              split; [exact H|congruence].
           ++ left. apply holds_iff. cbn [holders]. apply in_drop. split; [exact H|congruence].
        -- right. cbn [pcs]. rewrite upd_other; [exact H|]. intros ->. congruence.
    + destruct (pcs s t) eqn:E; try discriminate. injection D as <-. split.
      * intros u x [H|H]; [left; now left|]. cbn [pcs] in H. destruct (upd_cases (pcs s) t (DLink b (chead s)) u) as [[-> U]|[_ U]]; rewrite U in H; [discriminate|].
        left. now right.
      * intros x H. destruct (Nat.eq_dec x b) as [->|N]; [right; exists t; repeat split; [now right|exact E]|].
        left. intros u [K|K]; apply (H u); [now left|]. right. cbn [pcs]. rewrite upd_other; [exact K|]. intros ->. congruence.
    + destruct (pcs s t) eqn:E; try discriminate. destruct (b <? length (cmem s)); [|discriminate]. injection D as <-.
      apply same_passes. intros u x. split; (intros [H|H]; [now left|]).
      * cbn [pcs] in H. destruct (upd_cases (pcs s) t Idle u) as [[-> U]|[_ U]]; rewrite U in H; [discriminate|]. now right.
      * right. cbn [pcs]. rewrite upd_other; [exact H|]. intros ->. congruence.
    + destruct (pcs s t) eqn:E; try discriminate. destruct (holds s t b && (b <? length (cmem s))); [|discriminate]. injection D as <-.
      apply same_passes. intros u x. reflexivity.
  - destruct (holds s t b) eqn:Eh; [|discriminate]. injection D as <-. split.
    + intros u x [H|H]; [|left; now right]. apply holds_iff in H. cbn [holders] in H. destruct H as [H|H].
      * injection H as <- <-. right. left. exists t. split; [now left|reflexivity].
      * apply in_drop in H. left. left. apply holds_iff. apply H.
    + intros x H. left. intros u [K|K]; [|apply (H u); now right]. destruct (Nat.eq_dec x b) as [->|N].
      * apply (H t'). left. apply holds_iff. now left.
      * apply (H u). left. apply holds_iff. right. apply in_drop. split; [now apply holds_iff|congruence].
  - destruct (pcs s t); try discriminate. destruct (holds s t b); [|discriminate]. injection D as <-. apply same_passes. reflexivity.
  - injection D as <-. apply same_passes. reflexivity.
Qed.

(** ** Clients *)

(** An access of a client is over for whoever has the block, and for whoever accesses the list if nobody has it. *)
Definition settled (tr : list action) (s : cstate) (i b : nat) : Prop :=
  (forall t, has s t b -> known tr t i) /\ ((forall t, ~ has s t b) -> public tr i).
Lemma settled_step : forall tr s m s' i b, passes m s s' -> settled tr s i b -> settled (tr ++ [action_of m s]) s' i b.
Proof.
  intros tr s m s' i b [P Q] [K U]. split.
  - intros t H. destruct (P t b H) as [H1|[(u & H1 & E)|(H1 & _ & E)]].
    + apply known_old. auto.
    + rewrite E. apply known_passed. auto.
    + rewrite E. apply public_known. auto.
  - intro H. destruct (Q b H) as [H1|(t & H1 & _ & E)].
    + apply public_old. auto.
    + rewrite E. apply known_public. auto.
Qed.
Lemma client_acts : forall m s s' t b w, does m s = Step s' -> action_of m s = Client t b w -> holds s t b = true /\ (forall u x, has s' u x <-> has s u x) /\ pcs s t = Idle.
Proof.
  intros m s s' t b w D E. destruct m as [[l|u u' x]|u x|u u']; cbn [action_of] in E; try discriminate.
  - destruct l as [u|u|u|u sp|u x|u|u|u x v]; try discriminate; cbn [does happens cstep] in D.
    + destruct (pcs s u) as [| |[| |]| | |]; discriminate.
    + destruct (pcs s u) as [| | |[| |]| |]; discriminate.
    + destruct (pcs s u) as [| | | | |]; discriminate.
    + injection E as -> -> <-. destruct (pcs s t) eqn:Ep; try discriminate. destruct (holds s t b); [|discriminate].
      destruct (b <? length (cmem s)); [|discriminate]. injection D as <-. repeat split; auto.
  - injection E as -> -> <-. cbn [does] in D. destruct (pcs s t) eqn:Ep; try discriminate. destruct (holds s t b); [|discriminate].
    injection D as <-. repeat split; auto.
Qed.
Lemma clients_settled : forall n tr s, 0 < n -> history fresh_rule n tr s ->
  forall i t b w, nth_error tr i = Some (Client t b w) -> settled tr s i b.
Proof.
  intros n tr s Hn H. induction H as [|tr s m s' H IH A D]; intros i t b w E; [destruct i; discriminate|].
  destruct (history_x n tr s Hn H) as [fr I]. pose proof (move_passes n fr s m s' I A D) as P.
  apply nth_snoc in E. destruct E as [[_ E]|[-> E]].
  - apply settled_step; [exact P|]. exact (IH _ _ _ _ E).
  - destruct (client_acts m s s' t b w D E) as (Hh & Hs & _). split.
    + intros u K. apply Hs in K. rewrite (has_unique _ _ _ _ _ _ _ I K (or_introl Hh)). rewrite E. apply (own_known tr (Client t b w)).
    + intro K. exfalso. apply (K t). apply Hs. now left.
Qed.
Lemma clients_ordered : forall n tr s, 0 < n -> history fresh_rule n tr s ->
  forall i j t t' b w w', i < j -> nth_error tr i = Some (Client t b w) -> nth_error tr j = Some (Client t' b w') -> happens_before tr i j.
Proof.
  intros n tr s Hn H. induction H as [|tr s m s' H IH A D]; intros i j t t' b w w' L E F; [destruct i; discriminate|].
  apply nth_snoc in F. destruct F as [[Lj F]|[-> F]].
  - apply hb_old. rewrite nth_error_app1 in E by lia. eapply IH; eauto.
  - rewrite nth_error_app1 in E by lia. destruct (client_acts m s s' t' b w' D F) as (Hh & _ & _).
    apply known_hb. rewrite F. cbn [made_by]. apply (clients_settled n tr s Hn H i t b w E). now left.
Qed.

(** ** The last that a thread does is not known to others *)
Lemma last_not_known : forall tr i a, nth_error tr i = Some a -> (forall u, a <> Pass (made_by a) u) -> (forall u, a <> Atomic u true) ->
  (forall j c, i < j -> nth_error tr j = Some c -> made_by c <> made_by a) -> forall j, ~ happens_before tr i j.
Proof.
  intros tr i a E NP NA L j H. apply clos_trans_t1n in H.
  assert (B : exists k, before tr i k) by (inversion H; eauto).
  destruct B as (k & Lk & x & c & Ex & Ec & [O|(t & t' & w & Ea & _)]).
  - rewrite E in Ex. injection Ex as <-. destruct O as [O|[u O]].
    + apply (L k c Lk Ec). now symmetry.
    + apply (NP (made_by c)). rewrite O. cbn [made_by]. reflexivity.
  - rewrite E in Ex. injection Ex as <-. now apply (NA t).
Qed.

(** ** Allocations one at a time *)
Lemma move_pcs : forall m s s' t, does m s = Step s' ->
  (forall b q, pcs s' t = DLink b q -> pcs s t = DLink b q \/ (m = Ev (Do (LXchg t)) /\ pcs s t = DXchg b)) /\
  (forall b, refers (pcs s' t) b -> refers (pcs s t) b \/ (m = Ev (Do (LLoad t)) /\ pcs s t = ALoad /\ chead s = At b)) /\
  (forall b q, pcs s' t = ACas (At b) q -> pcs s t = ACas (At b) q \/ (m = Ev (Do (LRead t)) /\ pcs s t = ARead (At b))) /\
  (allocating (pcs s t) -> allocating (pcs s' t) \/ (chead s = Null /\ pcs s t = ALoad) \/ action_of m s = Atomic t true).
Proof.
  assert (Same : forall s s' t m, pcs s' t = pcs s t ->
    (forall b q, pcs s' t = DLink b q -> pcs s t = DLink b q \/ (m = Ev (Do (LXchg t)) /\ pcs s t = DXchg b)) /\
    (forall b, refers (pcs s' t) b -> refers (pcs s t) b \/ (m = Ev (Do (LLoad t)) /\ pcs s t = ALoad /\ chead s = At b)) /\
    (forall b q, pcs s' t = ACas (At b) q -> pcs s t = ACas (At b) q \/ (m = Ev (Do (LRead t)) /\ pcs s t = ARead (At b))) /\
    (allocating (pcs s t) -> allocating (pcs s' t) \/ (chead s = Null /\ pcs s t = ALoad) \/ action_of m s = Atomic t true)).
  { intros s s' t m E. rewrite E. repeat split; auto. }
  intros m s s' t D. destruct m as [[l|u u' x]|u x|u u']; cbn [does happens] in D.
  2:{ destruct (holds s u x); [|discriminate]. injection D as <-. now apply Same. }
  2:{ destruct (pcs s u); try discriminate. destruct (holds s u x); [|discriminate]. injection D as <-. now apply Same. }
  2:{ injection D as <-. now apply Same. }
  destruct (Nat.eq_dec t (thread_of l)) as [->|N]; [|apply Same; now apply (proj1 (cstep_pc l s s' D))].
  destruct l as [u|u|u|u sp|u x|u|u|u x v]; cbn [thread_of cstep] in *.
  - destruct (pcs s u) eqn:E; try discriminate. injection D as <-. cbn [set_pc pcs]. rewrite upd_same.
    repeat split; try discriminate; [|intros []]. intros b [H|[q H]]; discriminate.
  - destruct (pcs s u) eqn:E; try discriminate. injection D as <-. cbn [set_pc pcs]. rewrite upd_same.
    destruct (chead s) as [|y|y] eqn:Eh; (split; [discriminate|split; [|split; [discriminate|]]]).
    + intros b [H|[q H]]; discriminate.
    + intros _. right. left. auto.
    + intros b [H|[q H]]; [injection H as <-; auto|discriminate].
    + intros _. left. exact Logic.I.
    + intros b [H|[q H]]; discriminate.
    + intros _. left. exact Logic.I.
  - destruct (pcs s u) as [| |[|y|]| | |] eqn:E; try discriminate. destruct (nth_error (cmem s) y); [|discriminate]. injection D as <-.
    cbn [set_pc pcs]. rewrite upd_same. split; [discriminate|split; [|split]].
    + intros b [H|[q H]]; [discriminate|]. injection H as <- <-. left. now left.
    + intros b q H. injection H as <- <-. auto.
    + left. exact Logic.I.
  - destruct (pcs s u) as [| | |[|y|] z| |] eqn:E; try discriminate.
    destruct (ptr_eqb (chead s) (At y) && negb sp) eqn:Ec; injection D as <-; cbn [set_pc pcs]; rewrite upd_same;
      (split; [discriminate|split; [intros b [H|[q H]]; discriminate|split; [discriminate|]]]).
    + right. right. cbn [action_of]. now rewrite E, Ec.
    + left. exact Logic.I.
  - destruct (pcs s u) eqn:E; try discriminate. destruct (holds s u x); [|discriminate]. injection D as <-. cbn [pcs]. rewrite upd_same.
    repeat split; try discriminate; [|intros []]. intros b [H|[q H]]; discriminate.
  - destruct (pcs s u) eqn:E; try discriminate. injection D as <-. cbn [pcs]. rewrite upd_same.
    split; [|split; [intros y [H|[q H]]; discriminate|split; [discriminate|intros []]]]. intros y q H. injection H as <- <-. auto.
  - destruct (pcs s u) eqn:E; try discriminate. destruct (b <? length (cmem s)); [|discriminate]. injection D as <-. cbn [pcs]. rewrite upd_same.
    repeat split; try discriminate; [|intros []]. intros y [H|[q H]]; discriminate.
  - destruct (pcs s u) eqn:E; try discriminate. destruct (holds s u x && (x <? length (cmem s))); [|discriminate]. injection D as <-. cbn [pcs].
    rewrite E. split; [discriminate|split; [intros y [H|[q H]]; discriminate|split; [discriminate|intros []]]].
Qed.

Lemma link_read_acts : forall m s s' t b, does m s = Step s' -> action_of m s = Link t b false ->
  m = Ev (Do (LRead t)) /\ pcs s t = ARead (At b).
Proof.
  intros m s s' t b D E. destruct m as [[l|u u' x]|u x|u u']; cbn [action_of] in E; try discriminate.
  destruct l as [u|u|u|u sp|u x|u|u|u x v]; try discriminate.
  - destruct (pcs s u) as [| |[|y|]| | |] eqn:Ep; try discriminate. injection E as -> ->. auto.
  - destruct (pcs s u) as [| | |[| |]| |]; discriminate.
  - destruct (pcs s u) as [| | | | |]; discriminate.
Qed.
Lemma link_write_acts : forall m s s' t b, does m s = Step s' -> action_of m s = Link t b true ->
  m = Ev (Do (LLink t)) /\ exists q, pcs s t = DLink b q.
Proof.
  intros m s s' t b D E. destruct m as [[l|u u' x]|u x|u u']; cbn [action_of] in E; try discriminate.
  destruct l as [u|u|u|u sp|u x|u|u|u x v]; try discriminate.
  - destruct (pcs s u) as [| |[| |]| | |]; discriminate.
  - destruct (pcs s u) as [| | |[| |]| |]; discriminate.
  - destruct (pcs s u) as [| | | | |y q] eqn:Ep; try discriminate. injection E as -> ->. eauto.
Qed.

Lemma history_one : forall n tr s, 0 < n -> history one_allocator_rule n tr s -> exists fr, one_inv n fr s.
Proof. intros n tr s Hn H. destruct (history_run _ _ _ _ H) as [es R]. apply (one_reach n s Hn). now exists es. Qed.
Lemma one_fresh : forall n tr s, 0 < n -> history one_allocator_rule n tr s -> history fresh_rule n tr s.
Proof.
  intros n tr s Hn H. induction H as [|tr s m s' H IH A D]; [constructor|]. econstructor; [exact IH| |exact D].
  intros e ->. destruct (history_one n tr s Hn H) as [fr (I & _)]. exact (w_fresh n fr s e I).
Qed.

Record plain_inv (tr : list action) (s : cstate) (i : nat) (a : action) (b : nat) : Prop := {
  p_has : forall t, has s t b -> known tr t i;
  p_link : forall t q, pcs s t = DLink b q -> known tr t i;
  p_list : (forall u, a <> Link u b true) -> (forall t, ~ has s t b) -> public tr i \/ exists t, allocating (pcs s t) /\ known tr t i;
  p_refers : (forall u, a <> Link u b true) -> forall t, refers (pcs s t) b -> known tr t i;
  p_cas : forall t q, pcs s t = ACas (At b) q -> known tr t i
}.

Lemma in_list : forall n fr s b, XInv n [] fr s -> In b fr -> forall t, ~ has s t b.
Proof.
  intros n fr s b I H t [K|K]; [exact (proj2 (x_apart _ _ _ _ I b H) (holds_held _ _ _ K))|]. apply (proj2 (x_xchg _ _ _ _ I t b K)). now left.
Qed.

Lemma plain_step : forall n fr tr s m s' i a b, one_inv n fr s -> does m s = Step s' -> (forall e, m = Ev e -> allowed one_allocator_rule e s) ->
  b < n -> plain_inv tr s i a b ->
  (forall t, m = Ev (Do (LRead t)) -> pcs s t = ARead (At b) -> known (tr ++ [action_of m s]) t i) ->
  plain_inv (tr ++ [action_of m s]) s' i a b.
Proof.
  intros n fr tr s m s' i a b O D A Hb P R. pose proof (x_of_w _ _ _ (proj1 O)) as I. destruct O as (W & One & Rf).
  assert (A' : forall e, m = Ev e -> allowed fresh_rule e s) by (intros e _; exact (w_fresh n fr s e W)).
  destruct (move_passes n fr s m s' I A' D) as [PS PN]. constructor.
  - intros t H. destruct (PS t b H) as [H1|[(u & H1 & E)|(H1 & Hc & E)]].
    + apply known_old. now apply (p_has _ _ _ _ _ P).
    + rewrite E. apply known_passed. now apply (p_has _ _ _ _ _ P).
    + (* taken from the list *)
      apply known_old.
      assert (C : exists q, pcs s t = ACas (At b) q).
      { destruct H as [H|H].
        - destruct m as [[l|u u' x]|u x|u u']; cbn [action_of] in E; try discriminate. destruct l as [u|u|u|u sp|u x|u|u|u x v]; try discriminate.
          + destruct (pcs s u) as [| |[| |]| | |]; discriminate.
          + destruct (pcs s u) as [| | |[|y|] z| |] eqn:Ep; try discriminate. injection E as -> Ec.
            apply andb_true_iff in Ec. destruct Ec as [Ec _]. apply ptr_eqb_true in Ec. rewrite Hc in Ec. injection Ec as <-. eauto.
          + cbn [does happens cstep] in D. injection E as ->. destruct (pcs s t) eqn:Ep; try discriminate. injection D as <-. exfalso. apply (H1 t). now left.
          + destruct (pcs s u) as [| | | | |]; discriminate.
        - exfalso. destruct m as [[l|u u' x]|u x|u u']; cbn [action_of] in E; try discriminate. destruct l as [u|u|u|u sp|u x|u|u|u x v]; try discriminate.
          + destruct (pcs s u) as [| |[| |]| | |]; discriminate.
          + cbn [does happens cstep] in D. destruct (pcs s u) as [| | |[|y|] z| |] eqn:Ep; try discriminate. injection E as -> Ec. rewrite Ec in D. injection D as <-.
            cbn [pcs] in H. rewrite upd_same in H. discriminate.
          + cbn [does happens cstep] in D. injection E as ->. destruct (pcs s t) eqn:Ep; try discriminate. injection D as <-. cbn [pcs] in H.
            rewrite upd_same in H. discriminate.
          + destruct (pcs s u) as [| | | | |]; discriminate. }
      destruct C as [q C]. exact (p_cas _ _ _ _ _ P t q C).
  - intros t q H. destruct (proj1 (move_pcs m s s' t D) b q H) as [H1|[_ H1]]; apply known_old.
    + exact (p_link _ _ _ _ _ P t q H1).
    + apply (p_has _ _ _ _ _ P). now right.
  - intros Na H. destruct (PN b H) as [H1|(t & H1 & _ & E)].
    + destruct (p_list _ _ _ _ _ P Na H1) as [H2|(t & H2 & K)]; [left; now apply public_old|].
      destruct (proj2 (proj2 (proj2 (move_pcs m s s' t D))) H2) as [H3|[[H3 H4]|E]].
      * right. exists t. split; [exact H3|now apply known_old].
      * exfalso. pose proof (x_chain _ _ _ _ I) as C. rewrite H3 in C. destruct fr as [|x fr]; [|destruct C; discriminate].
        destruct (x_all _ _ _ _ I b Hb) as [[]|[[]|[K1|[u K1]]]].
        -- apply held_iff in K1. destruct K1 as [u K1]. apply (H1 u). now left.
        -- apply (H1 u). now right.
      * left. rewrite E. now apply known_public.
    + left. rewrite E. apply known_public. now apply (p_has _ _ _ _ _ P).
  - intros Na t H. destruct (proj1 (proj2 (move_pcs m s s' t D)) b H) as [H1|(-> & H1 & Hc)].
    + apply known_old. now apply (p_refers _ _ _ _ _ P Na).
    + assert (F : In b fr).
      { pose proof (x_chain _ _ _ _ I) as C. rewrite Hc in C. destruct (chainR_head _ _ _ C) as (L & q' & -> & _). now left. }
      destruct (p_list _ _ _ _ _ P Na (in_list _ _ _ _ I F)) as [H2|(u & H2 & K)].
      * cbn [action_of]. now apply public_known.
      * apply known_old. replace t with u; [exact K|]. apply One; [exact H2|]. rewrite H1. exact Logic.I.
  - intros t q H. destruct (proj1 (proj2 (proj2 (move_pcs m s s' t D))) b q H) as [H1|[E H1]].
    + apply known_old. exact (p_cas _ _ _ _ _ P t q H1).
    + now apply R.
Qed.

Lemma reads_prefix : forall tr a, reads_ordered (tr ++ [a]) -> reads_ordered tr.
Proof.
  intros tr a H i j t t' b L E F N. pose proof (nth_lt _ _ _ F). apply (hb_prefix tr a); [assumption|].
  apply (H i j t t' b); auto using nth_old.
Qed.
Lemma own_action : forall tr i a, nth_error tr i = Some a -> known tr (made_by a) i.
Proof. intros tr i a E. exists i, a. repeat split; [exact E|now left|now left]. Qed.

(** The new access. *)
Lemma plain_new : forall n fr tr s m s' b w, one_inv n fr s -> does m s = Step s' -> (forall e, m = Ev e -> allowed one_allocator_rule e s) ->
  touches (action_of m s) b w -> b < n /\ plain_inv (tr ++ [action_of m s]) s' (length tr) (action_of m s) b.
Proof.
  intros n fr tr s m s' b w O D A [t H]. pose proof (x_of_w _ _ _ (proj1 O)) as I. destruct O as (W & One & Rf).
  assert (A' : forall e, m = Ev e -> allowed fresh_rule e s) by (intros e _; exact (w_fresh n fr s e W)).
  destruct (move_passes n fr s m s' I A' D) as [PS PN].
  pose proof (own_known tr (action_of m s)) as K.
  destruct H as [H|H].
  - destruct w.
    + (* a link is stored *)
      destruct (link_write_acts m s s' t b D H) as [-> [q E]]. pose proof (wi_link _ _ _ W t b q E) as F. pose proof (in_list _ _ _ _ I F) as N.
      split; [exact (x_lt _ _ _ _ I b (or_introl F))|]. cbn [does happens cstep] in D. rewrite E in D.
      destruct (b <? length (cmem s)); [|discriminate]. injection D as <-.
      assert (U : forall u c, upd (pcs s) t Idle u = c -> c <> Idle -> u <> t /\ pcs s u = c).
      { intros u c X Y. destruct (upd_cases (pcs s) t Idle u) as [[-> Z]|[Z1 Z]]; [congruence|]. split; congruence. }
      constructor; cbn [pcs].
      * intros u [X|X]; exfalso; [apply (N u); now left|]. cbn [pcs] in X. apply U in X; [|discriminate]. apply (N u). right. apply X.
      * intros u q' X. apply U in X; [|discriminate]. destruct X as [X1 X]. exfalso. apply X1. exact (wi_link2 _ _ _ W u t b q' q X E).
      * intros Na. exfalso. rewrite H in Na. now apply (Na t).
      * intros Na. exfalso. rewrite H in Na. now apply (Na t).
      * intros u q' X. apply U in X; [|discriminate]. destruct X as [_ X]. exfalso. destruct (wi_cas _ _ _ W u _ _ X) as (y & Y & _ & Z). injection Y as <-.
        apply (proj2 (Z F) t). now exists q.
    + (* a link is read *)
      destruct (link_read_acts m s s' t b D H) as [-> E]. assert (F : In b fr) by (apply (Rf t); now left). pose proof (in_list _ _ _ _ I F) as N.
      split; [exact (x_lt _ _ _ _ I b (or_introl F))|]. specialize (A _ eq_refl). cbn [allowed one_allocator_rule] in A.
      cbn [does happens cstep] in D. rewrite E in D. destruct (nth_error (cmem s) b) as [c|]; [|discriminate]. injection D as <-.
      rewrite H in K. cbn [made_by] in K. rewrite H.
      assert (U : forall u c', upd (pcs s) t (ACas (At b) (as_ptr c)) u = c' -> u = t \/ pcs s u = c').
      { intros u c' X. destruct (upd_cases (pcs s) t (ACas (At b) (as_ptr c)) u) as [[-> Z]|[Z1 Z]]; [now left|right; congruence]. }
      assert (V : forall u, refers (pcs s u) b -> u = t).
      { intros u X. apply One; [destruct X as [X|[q X]]; rewrite X; exact Logic.I|rewrite E; exact Logic.I]. }
      constructor; cbn [set_pc pcs].
      * intros u X. exfalso. apply has_set in X; [|discriminate]. now apply (N u).
      * intros u q X. apply U in X. destruct X as [->|X]; [exact K|]. exfalso. apply (A u b). now exists q.
      * intros _ _. right. exists t. rewrite upd_same. split; [exact Logic.I|exact K].
      * intros _ u X. destruct (upd_cases (pcs s) t (ACas (At b) (as_ptr c)) u) as [[-> Z]|[Z1 Z]]; [exact K|]. rewrite Z in X. now rewrite (V u X).
      * intros u q X. apply U in X. destruct X as [->|X]; [exact K|]. rewrite (V u); [exact K|]. right. now exists q.
  - destruct (client_acts m s s' t b w D H) as (Hh & Hs & Ep). pose proof (holds_held _ _ _ Hh) as G.
    split; [exact (x_lt _ _ _ _ I b (or_intror (or_intror G)))|]. rewrite H in K. cbn [made_by] in K. rewrite H.
    assert (NF : ~ In b fr) by (intro F; exact (proj2 (x_apart _ _ _ _ I b F) G)).
    assert (Em : forall u, pcs s' u = pcs s u).
    { intro u. destruct m as [[l|u1 u2 x]|u1 x|u1 u2]; cbn [action_of] in H; try discriminate.
      - destruct l as [u1|u1|u1|u1 sp|u1 x|u1|u1|u1 x v]; try discriminate; cbn [does happens cstep] in D.
        + destruct (pcs s u1) as [| |[| |]| | |]; discriminate.
        + destruct (pcs s u1) as [| | |[| |]| |]; discriminate.
        + destruct (pcs s u1) as [| | | | |]; discriminate.
        + destruct (pcs s u1); try discriminate. destruct (holds s u1 x && (x <? length (cmem s))); [|discriminate]. now injection D as <-.
      - cbn [does] in D. destruct (pcs s u1); try discriminate. destruct (holds s u1 x); [|discriminate]. now injection D as <-. }
    constructor.
    + intros u X. apply Hs in X. now rewrite (has_unique _ _ _ _ _ _ _ I X (or_introl Hh)).
    + intros u q X. rewrite Em in X. exfalso. apply NF. exact (wi_link _ _ _ W u b q X).
    + intros _ X. exfalso. apply (X t). apply Hs. now left.
    + intros _ u X. rewrite Em in X. exfalso. apply NF. now apply (Rf u).
    + intros u q X. rewrite Em in X. exfalso. apply NF. apply (Rf u). right. now exists q.
Qed.

Lemma one_plain : forall n tr s, 0 < n -> history one_allocator_rule n tr s -> reads_ordered tr ->
  forall i a b w, nth_error tr i = Some a -> touches a b w -> b < n /\ plain_inv tr s i a b.
Proof.
  intros n tr s Hn H. induction H as [|tr s m s' H IH A D]; intros RO i a b w E T; [destruct i; discriminate|].
  destruct (history_one n tr s Hn H) as [fr O]. apply nth_snoc in E. destruct E as [[L E]|[-> E]].
  - destruct (IH (reads_prefix _ _ RO) i a b w E T) as [Hb P]. split; [exact Hb|]. apply (plain_step n fr); auto.
    intros t -> Et. destruct T as [u [T|T]].
    + destruct w.
      * destruct (Nat.eq_dec u t) as [->|N].
        -- rewrite T in E. apply known_old. exact (own_action _ _ _ E).
        -- apply hb_known; [|left; cbn [action_of]; now rewrite Et]. apply (RO i (length tr) u t b); auto.
           ++ apply nth_old. now rewrite E, T.
           ++ rewrite nth_new. cbn [action_of]. now rewrite Et.
      * apply known_old. apply (p_refers _ _ _ _ _ P); [rewrite T; discriminate|]. now left.
    + apply known_old. apply (p_refers _ _ _ _ _ P); [rewrite T; discriminate|]. now left.
  - subst a. eapply plain_new; eauto.
Qed.

Lemma one_race_free_hb : forall n tr s, 0 < n -> history one_allocator_rule n tr s -> reads_ordered tr -> race_free tr.
Proof.
  intros n tr s Hn H. induction H as [|tr s m s' H IH A D]; intros RO i j a c L E F X; [destruct i; discriminate|].
  apply nth_snoc in F. destruct F as [[Lj F]|[-> F]].
  - apply hb_old. rewrite nth_error_app1 in E by lia. exact (IH (reads_prefix _ _ RO) i j a c L E F X).
  - assert (E' := E). rewrite nth_error_app1 in E by lia. destruct X as (N & b & w & w' & T & T' & Ww).
    destruct (one_plain n tr s Hn H (reads_prefix _ _ RO) i a b w E T) as [_ P].
    destruct (history_one n tr s Hn H) as [fr O]. pose proof (x_of_w _ _ _ (proj1 O)) as I.
    destruct T' as [t [T'|T']].
    + destruct w'.
      * apply known_hb. rewrite F, T'. cbn [made_by]. subst c. destruct (link_write_acts m s s' t b D T') as [_ [q Eq]].
        exact (p_link _ _ _ _ _ P t q Eq).
      * rewrite orb_false_r in Ww. subst w. destruct T as [u [T|T]].
        -- apply (RO i (length tr) u t b); [lia|now rewrite E', T|rewrite nth_new; now rewrite F, T'|]. intro Eu. apply N. subst a c. rewrite T'. exact Eu.
        -- apply known_hb. rewrite F, T'. cbn [made_by]. subst c. destruct (link_read_acts m s s' t b D T') as [_ Eq].
           apply (p_refers _ _ _ _ _ P); [rewrite T; discriminate|]. now left.
    + apply known_hb. rewrite F, T'. cbn [made_by]. subst c. destruct (client_acts m s s' t b w' D T') as (Hh & _). apply (p_has _ _ _ _ _ P). now left.
Qed.

Lemma free_reads : forall tr, race_free tr -> reads_ordered tr.
Proof.
  intros tr H i j t t' b L E F N. apply (H i j _ _ L E F). split; [exact N|]. exists b, true, false. repeat split; eexists; left; reflexivity.
Qed.

(** ** Overlapping allocations *)
Lemma history_w : forall n tr s, 0 < n -> history hazard_rule n tr s -> exists fr, WInv n fr s.
Proof. intros n tr s Hn H. destruct (history_run _ _ _ _ H) as [es R]. apply (hazard_inv n s Hn). now exists es. Qed.
Lemma hazard_fresh : forall n tr s, 0 < n -> history hazard_rule n tr s -> history fresh_rule n tr s.
Proof.
  intros n tr s Hn H. induction H as [|tr s m s' H IH A D]; [constructor|]. econstructor; [exact IH| |exact D].
  intros e ->. destruct (history_w n tr s Hn H) as [fr I]. exact (w_fresh n fr s e I).
Qed.
Lemma taken_cas : forall m s s' t b, does m s = Step s' -> (forall u, ~ has s u b) -> chead s = At b -> action_of m s = Atomic t true -> has s' t b ->
  exists q, pcs s t = ACas (At b) q.
Proof.
  intros m s s' t b D H1 Hc E H. destruct H as [H|H].
  - destruct m as [[l|u u' x]|u x|u u']; cbn [action_of] in E; try discriminate. destruct l as [u|u|u|u sp|u x|u|u|u x v]; try discriminate.
    + destruct (pcs s u) as [| |[| |]| | |]; discriminate.
    + destruct (pcs s u) as [| | |[|y|] z| |] eqn:Ep; try discriminate. injection E as -> Ec.
      apply andb_true_iff in Ec. destruct Ec as [Ec _]. apply ptr_eqb_true in Ec. rewrite Hc in Ec. injection Ec as <-. eauto.
    + cbn [does happens cstep] in D. injection E as ->. destruct (pcs s t) eqn:Ep; try discriminate. injection D as <-. exfalso. apply (H1 t). now left.
    + destruct (pcs s u) as [| | | | |]; discriminate.
  - exfalso. destruct m as [[l|u u' x]|u x|u u']; cbn [action_of] in E; try discriminate. destruct l as [u|u|u|u sp|u x|u|u|u x v]; try discriminate.
    + destruct (pcs s u) as [| |[| |]| | |]; discriminate.
    + cbn [does happens cstep] in D. destruct (pcs s u) as [| | |[|y|] z| |] eqn:Ep; try discriminate. injection E as -> Ec. rewrite Ec in D. injection D as <-.
      cbn [pcs] in H. rewrite upd_same in H. discriminate.
    + cbn [does happens cstep] in D. injection E as ->. destruct (pcs s t) eqn:Ep; try discriminate. injection D as <-. cbn [pcs] in H.
      rewrite upd_same in H. discriminate.
    + destruct (pcs s u) as [| | | | |]; discriminate.
Qed.

(** Who knows of a link that was stored. *)
Record stored_inv (tr : list action) (s : cstate) (i b : nat) : Prop := {
  st_has : forall t, has s t b -> known tr t i;
  st_link : forall t q, pcs s t = DLink b q -> known tr t i;
  st_cas : forall t q, pcs s t = ACas (At b) q -> known tr t i
}.
Lemma stored_step : forall n fr tr s m s' i b, XInv n [] fr s -> does m s = Step s' -> (forall e, m = Ev e -> allowed fresh_rule e s) ->
  stored_inv tr s i b ->
  (forall t, m = Ev (Do (LRead t)) -> pcs s t = ARead (At b) -> known (tr ++ [action_of m s]) t i) ->
  stored_inv (tr ++ [action_of m s]) s' i b.
Proof.
  intros n fr tr s m s' i b I D A P R. destruct (move_passes n fr s m s' I A D) as [PS PN]. constructor.
  - intros t H. destruct (PS t b H) as [H1|[(u & H1 & E)|(H1 & Hc & E)]].
    + apply known_old. now apply (st_has _ _ _ _ P).
    + rewrite E. apply known_passed. now apply (st_has _ _ _ _ P).
    + apply known_old. destruct (taken_cas m s s' t b D H1 Hc E H) as [q C]. exact (st_cas _ _ _ _ P t q C).
  - intros t q H. destruct (proj1 (move_pcs m s s' t D) b q H) as [H1|[_ H1]]; apply known_old.
    + exact (st_link _ _ _ _ P t q H1).
    + apply (st_has _ _ _ _ P). now right.
  - intros t q H. destruct (proj1 (proj2 (proj2 (move_pcs m s s' t D))) b q H) as [H1|[E H1]].
    + apply known_old. exact (st_cas _ _ _ _ P t q H1).
    + now apply R.
Qed.
Lemma stored_new : forall n fr tr s m s' t b, WInv n fr s -> does m s = Step s' -> action_of m s = Link t b true ->
  stored_inv (tr ++ [action_of m s]) s' (length tr) b.
Proof.
  intros n fr tr s m s' t b W D H. pose proof (x_of_w _ _ _ W) as I.
  destruct (link_write_acts m s s' t b D H) as [-> [q E]]. pose proof (wi_link _ _ _ W t b q E) as F. pose proof (in_list _ _ _ _ I F) as N.
  cbn [does happens cstep] in D. rewrite E in D. destruct (b <? length (cmem s)); [|discriminate]. injection D as <-.
  assert (U : forall u c, upd (pcs s) t Idle u = c -> c <> Idle -> u <> t /\ pcs s u = c).
  { intros u c X Y. destruct (upd_cases (pcs s) t Idle u) as [[-> Z]|[Z1 Z]]; [congruence|]. split; congruence. }
  constructor; cbn [pcs].
  - intros u [X|X]; exfalso; [apply (N u); now left|]. cbn [pcs] in X. apply U in X; [|discriminate]. apply (N u). right. apply X.
  - intros u q' X. apply U in X; [|discriminate]. destruct X as [X1 X]. exfalso. apply X1. exact (wi_link2 _ _ _ W u t b q' q X E).
  - intros u q' X. apply U in X; [|discriminate]. destruct X as [_ X]. exfalso. destruct (wi_cas _ _ _ W u _ _ X) as (y & Y & _ & Z). injection Y as <-.
    apply (proj2 (Z F) t). now exists q.
Qed.

Lemma link_reads_prefix : forall tr a, link_reads_ordered (tr ++ [a]) -> link_reads_ordered tr.
Proof.
  intros tr a H i j x c L E F C R. pose proof (nth_lt _ _ _ F). apply (hb_prefix tr a); [assumption|].
  apply (H i j x c); auto using nth_old.
Qed.
Lemma hazard_stored : forall n tr s, 0 < n -> history hazard_rule n tr s -> link_reads_ordered tr ->
  forall i t b, nth_error tr i = Some (Link t b true) -> stored_inv tr s i b.
Proof.
  intros n tr s Hn H. induction H as [|tr s m s' H IH A D]; intros RO i t b E; [destruct i; discriminate|].
  destruct (history_w n tr s Hn H) as [fr W]. apply nth_snoc in E. destruct E as [[L E]|[-> E]].
  - apply (stored_step n fr); auto.
    + now apply x_of_w.
    + intros e _. exact (w_fresh n fr s e W).
    + exact (IH (link_reads_prefix _ _ RO) i t b E).
    + intros u -> Eu. destruct (Nat.eq_dec t u) as [->|N]; [apply known_old; exact (own_action _ _ _ E)|].
      apply hb_known; [|left; cbn [action_of]; now rewrite Eu].
      apply (RO i (length tr) (Link t b true) (Link u b false)); auto.
      * now apply nth_old.
      * rewrite nth_new. cbn [action_of]. now rewrite Eu.
      * split; [exact N|]. exists b, true, false. repeat split; eexists; left; reflexivity.
      * exists u, b. now right.
  - exact (stored_new n fr tr s m s' t b W D E).
Qed.
(** What a client did is known to who brings the block back. *)
Lemma client_link : forall n tr s, 0 < n -> history fresh_rule n tr s ->
  forall i t b w, nth_error tr i = Some (Client t b w) -> forall u q, pcs s u = DLink b q -> known tr u i.
Proof.
  intros n tr s Hn H. induction H as [|tr s m s' H IH A D]; intros i t b w E u q Eu; [destruct i; discriminate|].
  apply nth_snoc in E. destruct (proj1 (move_pcs m s s' u D) b q Eu) as [H1|[-> H1]].
  - destruct E as [[L E]|[-> E]]; [apply known_old; exact (IH i t b w E u q H1)|]. exfalso.
    destruct (history_x n tr s Hn H) as [fr I]. destruct (client_acts m s s' t b w D E) as (Hh & _ & _).
    destruct (x_link _ _ _ _ I u b q H1) as [F|[]]. exact (in_list _ _ _ _ I F t (or_introl Hh)).
  - destruct E as [[L E]|[-> E]]; [|discriminate]. apply known_old. apply (clients_settled n tr s Hn H i t b w E). now right.
Qed.

Lemma hazard_race_free : forall n tr s, 0 < n -> history hazard_rule n tr s -> link_reads_ordered tr -> race_free tr.
Proof.
  intros n tr s Hn H. induction H as [|tr s m s' H IH A D]; intros RO i j a c L E F X; [destruct i; discriminate|].
  apply nth_snoc in F. destruct F as [[Lj F]|[-> F]].
  - apply hb_old. rewrite nth_error_app1 in E by lia. exact (IH (link_reads_prefix _ _ RO) i j a c L E F X).
  - assert (E' := E). rewrite nth_error_app1 in E by lia. pose proof (hazard_fresh n tr s Hn H) as HF.
    assert (F' : nth_error (tr ++ [action_of m s]) (length tr) = Some c) by (rewrite nth_new; now rewrite F).
    pose proof X as X'. destruct X as (N & b & w & w' & T & T' & Ww).
    destruct T as [u [T|T]].
    + destruct w; [|apply (RO i (length tr) a c L E' F' X'); exists u, b; now left].
      subst a. pose proof (hazard_stored n tr s Hn H (link_reads_prefix _ _ RO) i u b E) as P.
      destruct T' as [t [T'|T']].
      * destruct w'; [|apply (RO i (length tr) _ c L E' F' X'); exists t, b; now right].
        apply known_hb. rewrite F, T'. cbn [made_by]. subst c. destruct (link_write_acts m s s' t b D T') as [_ [q Eq]].
        exact (st_link _ _ _ _ P t q Eq).
      * apply known_hb. rewrite F, T'. cbn [made_by]. subst c. destruct (client_acts m s s' t b w' D T') as (Hh & _). apply (st_has _ _ _ _ P). now left.
    + subst a. destruct T' as [t [T'|T']].
      * destruct w'; [|apply (RO i (length tr) _ c L E' F' X'); exists t, b; now right].
        apply known_hb. rewrite F, T'. cbn [made_by]. subst c. destruct (link_write_acts m s s' t b D T') as [_ [q Eq]].
        exact (client_link n tr s Hn HF i u b w E t q Eq).
      * apply known_hb. rewrite F, T'. cbn [made_by]. subst c. destruct (client_acts m s s' t b w' D T') as (Hh & _).
        apply (clients_settled n tr s Hn HF i u b w E). now left.
Qed.
Lemma free_link_reads : forall tr, race_free tr -> link_reads_ordered tr.
Proof. intros tr H i j a c L E F X _. exact (H i j a c L E F X). Qed.

(** ** Calls one at a time, each after what was done in those before *)
Lemma history_impl : forall (ok ok' : rule) n tr s,
  (forall tr s e, history ok n tr s -> allowed ok e s -> happens e s <> Disabled -> allowed ok' e s) -> history ok n tr s -> history ok' n tr s.
Proof.
  intros ok ok' n tr s C H. induction H as [|tr s m s' H IH A D]; [constructor|]. econstructor; [exact IH| |exact D].
  intros e ->. apply (C tr s e H (A e eq_refl)). cbn [does] in D. congruence.
Qed.
Lemma serial_history : forall n tr s, history serial_rule n tr s -> history one_allocator_rule n tr s /\ one_busy s.
Proof.
  assert (B : forall n tr s, history serial_rule n tr s -> one_busy s).
  { intros n tr s H. destruct (history_run _ _ _ _ H) as [es R]. apply (serial_reach n). now exists es. }
  intros n tr s H. split; [|now apply (B n tr)]. revert H. apply history_impl. clear tr s. intros tr s e H A D. specialize (B n tr s H).
  destruct e as [[t|t|t|t sp|t b|t|t|t b v]|t t' b]; cbn [allowed one_allocator_rule serial_rule] in *; auto.
  - intros t'. rewrite A. intros [].
  - intros t' b [q C]. apply D. cbn [happens cstep]. destruct (pcs s t) as [| |p| | |] eqn:Ep; try reflexivity.
    assert (t = t') by (apply B; congruence). congruence.
Qed.

Lemma busy_started : forall m s s' t, does m s = Step s' -> pcs s' t <> Idle -> pcs s t <> Idle \/ action_of m s = Call t.
Proof.
  intros m s s' t D H. destruct m as [[l|u u' x]|u x|u u']; cbn [does happens] in D.
  - destruct (Nat.eq_dec t (thread_of l)) as [->|N]; [|left; rewrite <- (proj1 (cstep_pc l s s' D) t N); exact H].
    destruct (cstep_busy l s s' D H) as [K|[[x ->]|(x & y & ->)]]; auto.
  - destruct (holds s u x); [|discriminate]. injection D as <-. now left.
  - destruct (pcs s u); try discriminate. destruct (holds s u x); [|discriminate]. injection D as <-. now left.
  - injection D as <-. now left.
Qed.
Lemma pool_busy : forall m s s', does m s = Step s' -> of_pool (action_of m s) -> pcs s (made_by (action_of m s)) <> Idle.
Proof.
  intros m s s' D H. destruct m as [[l|u u' x]|u x|u u']; cbn [action_of of_pool] in *; try contradiction.
  destruct l as [u|u|u|u sp|u x|u|u|u x v]; cbn [does happens cstep] in D; try contradiction.
  - cbn [made_by]. destruct (pcs s u); congruence.
  - destruct (pcs s u) as [| |[| |]| | |] eqn:E; cbn [made_by]; try contradiction; congruence.
  - destruct (pcs s u) as [| | |[| |]| |] eqn:E; cbn [made_by]; try contradiction; congruence.
  - cbn [made_by]. destruct (pcs s u); congruence.
  - destruct (pcs s u) as [| | | | |] eqn:E; cbn [made_by]; try contradiction; congruence.
Qed.
(** The call that a thread is in, and what was done since. *)
Lemma call_started : forall n tr s, history serial_rule n tr s -> forall t, pcs s t <> Idle ->
  exists k, nth_error tr k = Some (Call t) /\ forall i a, k < i -> nth_error tr i = Some a -> of_pool a -> made_by a = t.
Proof.
  intros n tr s H. induction H as [|tr s m s' H IH A D]; intros t B; [now destruct B|].
  destruct (busy_started m s s' t D B) as [B1|E].
  - destruct (IH t B1) as (k & E & L). exists k. split; [now apply nth_old|]. intros i a Li Ei P. apply nth_snoc in Ei. destruct Ei as [[_ Ei]|[_ Ei]].
    + exact (L i a Li Ei P).
    + subst a. exact (proj2 (serial_history n tr s H) _ _ (pool_busy m s s' D P) B1).
  - exists (length tr). rewrite E, nth_new. split; [reflexivity|]. intros i a Li Ei. apply nth_snoc in Ei. lia.
Qed.
Lemma calls_prefix : forall tr a, calls_ordered (tr ++ [a]) -> calls_ordered tr.
Proof.
  intros tr a H i j c t L E F P. pose proof (nth_lt _ _ _ F). apply (hb_prefix tr a); [assumption|]. apply (H i j c t); auto using nth_old.
Qed.
Lemma locked_reads : forall n tr s, history serial_rule n tr s -> calls_ordered tr -> reads_ordered tr.
Proof.
  intros n tr s H. induction H as [|tr s m s' H IH A D]; intros CO i j t t' b L E F N; [destruct i; discriminate|].
  apply nth_snoc in F. destruct F as [[Lj F]|[-> F]].
  - apply hb_old. rewrite nth_error_app1 in E by lia. exact (IH (calls_prefix _ _ CO) i j t t' b L E F N).
  - rewrite nth_error_app1 in E by lia. destruct (link_read_acts m s s' t' b D F) as [_ Ep].
    destruct (call_started n tr s H t') as (k & Ek & Lk); [congruence|]. apply known_hb. rewrite F. cbn [made_by].
    exists k, (Call t'). split; [exact Ek|]. split; [now left|].
    destruct (Nat.lt_ge_cases k i) as [Hk|Hk]; [exfalso; apply N; exact (Lk i _ Hk E Logic.I)|].
    destruct (Nat.eq_dec i k) as [->|Nk]; [now left|]. right.
    apply (calls_prefix _ _ CO i k (Link t b true) t'); auto; [lia|exact Logic.I].
Qed.
Lemma locked_free : forall n tr s, 0 < n -> history serial_rule n tr s -> calls_ordered tr -> race_free tr.
Proof.
  intros n tr s Hn H CO. apply (one_race_free_hb n tr s Hn); [apply (serial_history n tr s H)|exact (locked_reads n tr s H CO)].
Qed.

(** ** Checking a given execution *)
Fixpoint play (okb : label -> cstate -> bool) (ms : list move) (s : cstate) : option (list action * cstate) :=
  match ms with
  | [] => Some ([], s)
  | m :: ms =>
      if match m with Ev (Do l) => okb l s | _ => true end
      then match does m s with
           | Step s' => match play okb ms s' with Some (tr, s'') => Some (action_of m s :: tr, s'') | None => None end
           | _ => None
           end
      else None
  end.
Lemma play_history : forall (ok : rule) okb k n, (forall l s, idle_from k s -> okb l s = true -> ok l s) ->
  forall ms tr0 s tr s', idle_from k s -> forallb (fun m => match m with Ev (Do l) => thread_of l <? k | _ => true end) ms = true ->
    history ok n tr0 s -> play okb ms s = Some (tr, s') -> history ok n (tr0 ++ tr) s'.
Proof.
  intros ok okb k n H ms. induction ms as [|m ms IH]; intros tr0 s tr s' Hi Ht H0 E; cbn [play forallb] in *.
  - injection E as <- <-. now rewrite app_nil_r.
  - apply andb_true_iff in Ht. destruct Ht as [He Ht].
    destruct (match m with Ev (Do l) => okb l s | _ => true end) eqn:Ek; [|discriminate E].
    destruct (does m s) as [| |s1] eqn:Es; try discriminate E. destruct (play okb ms s1) as [[tr1 s2]|] eqn:Ep; [|discriminate E]. injection E as <- <-.
    assert (Hi1 : idle_from k s1).
    { intros t Hk. destruct m as [[l|t1 t2 b]|t1 b|t1 t2]; cbn [does happens] in Es.
      - apply Nat.ltb_lt in He. destruct (cstep_pc l s s1 Es) as [K _]. rewrite K by lia. now apply Hi.
      - destruct (holds s t1 b); [|discriminate Es]. injection Es as <-. now apply Hi.
      - destruct (pcs s t1); try discriminate. destruct (holds s t1 b); [|discriminate]. injection Es as <-. now apply Hi.
      - injection Es as <-. now apply Hi. }
    assert (S : history ok n (tr0 ++ [action_of m s]) s1).
    { econstructor; eauto. intros e ->. destruct e as [l|]; cbn [allowed]; auto. }
    pose proof (IH _ _ _ _ Hi1 Ht S Ep) as R. now rewrite <- app_assoc in R.
Qed.
Definition overb (a : action) (t : nat) : bool := (made_by a =? t) || match a with Pass _ u => u =? t | _ => false end.
Definition beforeb (tr : list action) (i j : nat) : bool :=
  (i <? j) && match nth_error tr i, nth_error tr j with
              | Some a, Some c => overb a (made_by c) || match a, c with Atomic _ true, Atomic _ _ => true | _, _ => false end
              | _, _ => false
              end.
Lemma beforeb_true : forall tr i j, beforeb tr i j = true -> before tr i j.
Proof.
  intros tr i j H. unfold beforeb in H. apply andb_true_iff in H. destruct H as [L H]. apply Nat.ltb_lt in L. split; [exact L|].
  destruct (nth_error tr i) as [a|]; [|discriminate]. destruct (nth_error tr j) as [c|]; [|discriminate]. exists a, c. repeat split.
  apply orb_true_iff in H. destruct H as [H|H].
  - left. unfold overb in H. apply orb_true_iff in H. destruct H as [H|H]; [left; now apply Nat.eqb_eq|]. destruct a; try discriminate.
    apply Nat.eqb_eq in H. subst t'. right. now exists t.
  - destruct a as [t [|]| | | |]; try discriminate. destruct c as [t' w'| | | |]; try discriminate. right. eauto.
Qed.
(** What is reached from [i], up to [j]. *)
Fixpoint reached (tr : list action) (i j : nat) : list nat :=
  match j with
  | O => []
  | S j => let r := reached tr i j in if existsb (fun k => beforeb tr k j) (i :: r) then j :: r else r
  end.
Lemma reached_hb : forall tr i j k, In k (reached tr i j) -> happens_before tr i k.
Proof.
  intros tr i j. induction j as [|j IH]; intros k H; [destruct H|]. cbn [reached] in H.
  destruct (existsb (fun k => beforeb tr k j) (i :: reached tr i j)) eqn:E; [|auto]. destruct H as [<-|H]; [|auto].
  apply existsb_exists in E. destruct E as (x & [<-|Hx] & B); apply beforeb_true in B; [now apply t_step|].
  eapply t_trans; [exact (IH x Hx)|now apply t_step].
Qed.
Definition all_pairs (tr : list action) (p : action -> action -> bool) : bool :=
  forallb (fun j => forallb (fun i => match nth_error tr i, nth_error tr j with
                                       | Some a, Some c => negb (p a c) || existsb (Nat.eqb j) (reached tr i (S j))
                                       | _, _ => true
                                       end) (seq 0 j)) (seq 0 (length tr)).
Lemma all_pairs_hb : forall tr p, all_pairs tr p = true -> forall i j a c, i < j -> nth_error tr i = Some a -> nth_error tr j = Some c -> p a c = true ->
  happens_before tr i j.
Proof.
  intros tr p H i j a c L E F P. unfold all_pairs in H. rewrite forallb_forall in H.
  assert (Hj : In j (seq 0 (length tr))) by (apply in_seq; pose proof (nth_lt _ _ _ F); lia). specialize (H j Hj). rewrite forallb_forall in H.
  assert (Hi : In i (seq 0 j)) by (apply in_seq; lia). specialize (H i Hi). rewrite E, F, P in H. cbn [negb orb] in H.
  apply existsb_exists in H. destruct H as (x & Hx & Ex). apply Nat.eqb_eq in Ex. subst x. exact (reached_hb _ _ _ _ Hx).
Qed.
