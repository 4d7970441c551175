(** * Proofs about the bus (C151) *)
From Coq Require Import ZArith List Bool Lia Permutation Sorted.
From Verif Require Import Outcome CanFrameModel CanFrameSpec CanFrameProofs ArbitrationSpec.
Import ListNotations.
Open Scope Z_scope.

(** ** The arbitration field *)

Lemma wins_same : forall c a b, wins_arbitration (c ++ a) (c ++ b) = wins_arbitration a b.
Proof. induction c as [|x c IH]; intros; simpl; auto. destruct x; auto. Qed.

Lemma wins_insert : forall c a1 b1 a2 b2, length a1 = length b1 ->
  wins_arbitration (a1 ++ c ++ a2) (b1 ++ c ++ b2) = wins_arbitration (a1 ++ a2) (b1 ++ b2).
Proof.
  intros c. induction a1 as [|x a1 IH]; intros [|y b1] a2 b2 L; try discriminate L.
  - simpl. apply wins_same.
  - simpl. injection L as L. rewrite (IH b1 a2 b2 L). reflexivity.
Qed.

Lemma wins_end : forall c a b, length a = length b -> wins_arbitration (a ++ c) (b ++ c) = wins_arbitration a b.
Proof.
  intros c. induction a as [|x a IH]; intros [|y b] L; try discriminate L.
  - simpl. induction c as [|z c IH]; simpl; auto. destruct z; auto.
  - simpl. injection L as L. rewrite (IH b L). reflexivity.
Qed.

Lemma id_bits_length : forall id, length (id_bits id) = 29%nat.
Proof. intros. unfold id_bits. rewrite map_length, rev_length, seq_length. reflexivity. Qed.

Lemma wire_length : forall f, length (wire_bits f) = 32%nat.
Proof.
  intros. unfold wire_bits. rewrite !app_length, firstn_length, skipn_length, id_bits_length. reflexivity.
Qed.

Lemma wire_wins : forall a b, wins_arbitration (wire_bits a) (wire_bits b) = priorityHigherThan a b.
Proof.
  intros. rewrite priority_is_arbitration. unfold wire_bits.
  assert (L : length (firstn 11 (id_bits (fid a))) = length (firstn 11 (id_bits (fid b))))
    by (rewrite !firstn_length, !id_bits_length; reflexivity).
  rewrite (wins_insert [true; true]) by exact L.
  rewrite !app_assoc, !firstn_skipn. apply wins_end. rewrite !id_bits_length. reflexivity.
Qed.

(** ** Contests *)

(** [x] loses against [y] within [n] bits from the [k]th on. *)
Definition beaten {A} (bits : A -> list bool) (n k : nat) (x y : A) : Prop :=
  exists j, (k <= j < k + n)%nat /\ (forall i, (k <= i < j)%nat -> nth i (bits x) true = nth i (bits y) true) /\
            nth j (bits x) true = true /\ nth j (bits y) true = false.

Lemma beaten_step : forall A (bits : A -> list bool) n k x y, nth k (bits x) true = nth k (bits y) true ->
  beaten bits (S n) k x y <-> beaten bits n (S k) x y.
Proof.
  intros A bits n k x y E. split; intros [j (R & AG & X & Y)].
  - assert (j <> k) by (intros ->; congruence). exists j. repeat split; try lia; auto. intros i Hi. apply AG. lia.
  - exists j. repeat split; try lia; auto. intros i Hi. destruct (Nat.eq_dec i k) as [-> | N]; auto. apply AG. lia.
Qed.

Lemma contest_in : forall A (bits : A -> list bool) n k l x,
  In x (contest bits n k l) <-> In x l /\ forall y, In y l -> ~ beaten bits n k x y.
Proof.
  intros A bits. induction n as [|n IH]; intros k l x; cbn [contest].
  - split; [intros H; split; auto; intros y _ [j (R & _)]; lia | tauto].
  - set (bus := forallb (fun z => nth k (bits z) true) l).
    assert (B1 : bus = true -> forall z, In z l -> nth k (bits z) true = true)
      by (intros H; apply forallb_forall; exact H).
    assert (B2 : bus = false -> exists z, In z l /\ nth k (bits z) true = false).
    { unfold bus. clear. induction l as [|a l IHl]; simpl; [discriminate|]. intros H. destruct (nth k (bits a) true) eqn:E.
      - destruct (IHl H) as (z & Z1 & Z2). exists z. auto.
      - exists a. auto. }
    clearbody bus. rewrite IH, filter_In, eqb_true_iff. split.
    + intros [[X XB] NB]. split; auto. intros y Y BT.
      destruct (bool_dec (nth k (bits y) true) bus) as [E|E].
      * apply (NB y); [apply filter_In; split; auto; apply eqb_true_iff; auto|].
        apply beaten_step; auto. congruence.
      * destruct bus eqn:EB; [apply E; apply B1; auto|].
        destruct BT as [j (R & AG & X1 & Y1)]. destruct (Nat.eq_dec j k) as [-> | N]; [congruence|].
        specialize (AG k ltac:(lia)). apply E. rewrite <- AG. exact XB.
    + intros [X NB]. assert (XB : nth k (bits x) true = bus).
      { destruct bus eqn:EB; [apply B1; auto|]. destruct (B2 eq_refl) as (z & Z1 & Z2).
        destruct (nth k (bits x) true) eqn:E; auto. exfalso. apply (NB z Z1). exists k. repeat split; auto; try lia. }
      split; [auto|]. intros y Y BT. apply filter_In in Y. destruct Y as [Y YB]. apply eqb_prop in YB.
      apply (NB y Y). apply (proj2 (beaten_step A bits n k x y (eq_trans XB (eq_sym YB)))). exact BT.
Qed.

Lemma contest_nodup : forall A (bits : A -> list bool) n k l, NoDup l -> NoDup (contest bits n k l).
Proof. intros A bits. induction n as [|n IH]; intros k l H; simpl; auto. apply IH. apply NoDup_filter. exact H. Qed.

Lemma beaten_wins : forall a b k, length a = length b ->
  beaten (fun l : list bool => repeat true k ++ l) (length a) k a b <-> wins_arbitration b a = true.
Proof.
  induction a as [|x a IH]; intros [|y b] k L; try discriminate L.
  - simpl. split; [intros [j (R & _)]; lia | discriminate].
  - injection L as L.
    assert (HD : forall z (l : list bool), nth k (repeat true k ++ z :: l) true = z)
      by (intros; rewrite app_nth2; rewrite repeat_length; [rewrite Nat.sub_diag; reflexivity | lia]).
    assert (TL : forall z (l : list bool) i, (S k <= i)%nat ->
                 nth i (repeat true k ++ z :: l) true = nth i (repeat true (S k) ++ l) true).
    { intros z l i Hi. rewrite !app_nth2; rewrite ?repeat_length; try lia.
      replace (i - k)%nat with (S (i - S k)) by lia. reflexivity. }
    cbn [length]. destruct (bool_dec x y) as [<- | N].
    + rewrite beaten_step by (rewrite !HD; reflexivity).
      assert (W : wins_arbitration (x :: b) (x :: a) = wins_arbitration b a) by (destruct x; reflexivity).
      rewrite W, <- (IH b (S k) L).
      unfold beaten. split; intros [j (R & AG & X & Y)]; exists j; (split; [lia|]);
        rewrite ?TL in * by lia; repeat split; auto; intros i Hi; specialize (AG i Hi);
        rewrite ?TL in * by lia; auto.
    + destruct x, y; try congruence; cbn [wins_arbitration].
      * split; auto. intros _. exists k. rewrite !HD. repeat split; auto; try lia. 
      * split; [|discriminate]. intros [j (R & AG & X & Y)]. destruct (Nat.eq_dec j k) as [-> | N2].
        -- rewrite HD in X. discriminate.
        -- specialize (AG k ltac:(lia)). rewrite !HD in AG. discriminate.
Qed.

Lemma winners_in : forall o i f, In (i, f) (winners o) <->
  In (i, f) o /\ forall j g, In (j, g) o -> priorityHigherThan g f = false.
Proof.
  intros o i f. unfold winners. rewrite contest_in.
  assert (B : forall j g, beaten (fun x : nat * frame => wire_bits (snd x)) 32 0 (i, f) (j, g) <-> priorityHigherThan g f = true).
  { intros j g. rewrite <- wire_wins. rewrite <- (beaten_wins (wire_bits f) (wire_bits g) 0) by (rewrite !wire_length; reflexivity).
    rewrite wire_length. reflexivity. }
  split; intros [I1 N]; split; auto.
  - intros j g G. specialize (N (j, g) G). rewrite B in N. destruct (priorityHigherThan g f); congruence.
  - intros [j g] G. rewrite B, (N j g G). discriminate.
Qed.

Lemma winners_nodup : forall o, NoDup o -> NoDup (winners o).
Proof. intros o H. apply contest_nodup. exact H. Qed.

Local Opaque winners.

(** ** Priority as a number *)

Lemma higher_can_id : forall a b, priorityHigherThan a b = (can_id a <? can_id b).
Proof. intros. unfold priorityHigherThan, can_id. rewrite !land_MaskExtID. reflexivity. Qed.

Lemma lt_can_id : forall a b, frame_lt a b = (can_id b <? can_id a).
Proof.
  intros. destruct (priority_operators a b) as (_ & H & _ & H2). rewrite H, H2. apply higher_can_id.
Qed.

(** ** Winning *)

Lemma in_split_first : forall (q : list frame) f, In f q -> exists q1 q2, q = q1 ++ f :: q2.
Proof. intros. apply in_split. exact H. Qed.

(** What wins has no frame of higher priority waiting anywhere. *)
Lemma winner_highest : forall s o i f, offering s o -> In (i, f) (winners o) ->
  forall j q g, nth_error s j = Some q -> In g q -> priorityHigherThan g f = false.
Proof.
  intros s o i f (ND & OF & ALL) W j q g Q G. destruct (proj1 (winners_in o i f) W) as [_ H]. clear W. rename H into W.
  destruct (ALL j q Q) as (t & T); [intros ->; destruct G|].
  destruct (OF j t T) as (q' & Q' & _ & TOP). rewrite Q in Q'. injection Q' as <-.
  specialize (W j t T). specialize (TOP g G). rewrite higher_can_id in *. rewrite lt_can_id in TOP.
  apply Z.ltb_ge in W, TOP. apply Z.ltb_ge. lia.
Qed.

(** A list of offers always exists. *)
Lemma top_exists : forall q, q <> [] -> exists f, is_top q f.
Proof.
  induction q as [|a q IH]; [congruence|]. intros _. destruct q as [|b q].
  - exists a. split; [left; auto|]. intros g [<- | []]. rewrite lt_can_id. apply Z.ltb_ge. lia.
  - destruct IH as (f & F & T); [discriminate|]. destruct (can_id a <? can_id f) eqn:E.
    + exists a. split; [left; auto|]. intros g [<- | G]; rewrite lt_can_id; apply Z.ltb_ge; [lia|].
      specialize (T g G). rewrite lt_can_id in T. apply Z.ltb_ge in T. apply Z.ltb_lt in E. lia.
    + exists f. split; [right; auto|]. intros g [<- | G]; auto. rewrite lt_can_id. apply Z.ltb_ge. apply Z.ltb_ge in E. lia.
Qed.

Lemma offering_cons : forall s (q : list frame), (exists o, offering s o) -> exists o, offering (q :: s) o.
Proof.
  intros s q (o & ND & OF & ALL).
  set (o' := map (fun x : nat * frame => (S (fst x), snd x)) o).
  assert (F' : map fst o' = map S (map fst o)) by (unfold o'; rewrite !map_map; reflexivity).
  assert (ND' : NoDup (map fst o')).
  { rewrite F'. apply FinFun.Injective_map_NoDup; auto. intros x y E. congruence. }
  assert (IN : forall i f, In (i, f) o' <-> exists k, i = S k /\ In (k, f) o).
  { intros i f. unfold o'. rewrite in_map_iff. split.
    - intros ([k g] & E & H). injection E as <- <-. exists k. auto.
    - intros (k & -> & H). exists (k, f). auto. }
  assert (OF' : forall i f, In (i, f) o' -> exists q0, nth_error (q :: s) i = Some q0 /\ is_top q0 f).
  { intros i f H. apply IN in H. destruct H as (k & -> & H). apply (OF k f H). }
  assert (ALL' : forall k q0, nth_error s k = Some q0 -> q0 <> [] -> exists f, In (S k, f) o').
  { intros k q0 Q N. destruct (ALL k q0 Q N) as (f & H). exists f. apply IN. exists k. auto. }
  destruct q as [|a q].
  - exists o'. repeat split; auto. intros [|k] q0 Q N.
    + simpl in Q. injection Q as <-. congruence.
    + apply (ALL' k q0 Q N).
  - destruct (top_exists (a :: q)) as (t & T); [discriminate|]. exists ((0%nat, t) :: o'). repeat split.
    + simpl. constructor; auto. rewrite F', in_map_iff. intros (x & E & _). discriminate.
    + intros i f [E | H]; [injection E as <- <-; exists (a :: q); auto | apply OF'; auto].
    + intros [|k] q0 Q N; [exists t; left; auto|]. destruct (ALL' k q0 Q N) as (f & H). exists f. right. exact H.
Qed.

Lemma offering_exists : forall s, exists o, offering s o.
Proof.
  induction s as [|q s IH].
  - exists []. repeat split; [constructor | intros i f [] | intros [|i] q Q; discriminate].
  - apply offering_cons. exact IH.
Qed.

Lemma best_exists : forall (o : list (nat * frame)), o <> [] -> winners o <> [].
Proof.
  intros o N. assert (E : exists i f, In (i, f) o /\ forall j g, In (j, g) o -> can_id f <= can_id g).
  { induction o as [|[i f] o IH]; [congruence|]. destruct o as [|p o].
    - exists i, f. split; [left; auto|]. intros j g [E | []]. injection E as <- <-. lia.
    - destruct IH as (k & h & H & M); [discriminate|]. destruct (Z.le_gt_cases (can_id f) (can_id h)).
      + exists i, f. split; [left; auto|]. intros j g [E | G]; [injection E as <- <-; lia|]. specialize (M j g G). lia.
      + exists k, h. split; [right; auto|]. intros j g [E | G]; [injection E as <- <-; lia|]. apply (M j g G). }
  destruct E as (i & f & F & M). intros W.
  assert (IW : In (i, f) (winners o)).
  { apply (proj2 (winners_in o i f)). split; auto. intros j g G. rewrite higher_can_id. apply Z.ltb_ge. apply (M j g G). }
  rewrite W in IW. destruct IW.
Qed.

(** With owners nobody ties. *)
Lemma one_winner : forall owner s o, queues_own owner s -> offering s o -> o <> [] ->
  exists i f, winners o = [(i, f)].
Proof.
  intros owner s o OW OF N. pose proof (best_exists o N) as W.
  destruct (winners o) as [|[i f] [|[j g] l]] eqn:E; [congruence | exists i, f; reflexivity|]. exfalso.
  assert (W1 : In (i, f) (winners o)) by (rewrite E; left; auto).
  assert (W2 : In (j, g) (winners o)) by (rewrite E; right; left; auto).
  destruct OF as (ND & OF & ALL).
  assert (NDW : NoDup (winners o)) by (apply winners_nodup; eapply NoDup_map_inv; exact ND).
  destruct (proj1 (winners_in o i f) W1) as [I1 H1]. destruct (proj1 (winners_in o j g) W2) as [I2 H2].
  assert (EQ : can_id f = can_id g).
  { specialize (H1 j g I2). specialize (H2 i f I1). rewrite higher_can_id in H1, H2. apply Z.ltb_ge in H1, H2. lia. }
  destruct (OF i f I1) as (q1 & Q1 & M1 & _). destruct (OF j g I2) as (q2 & Q2 & M2 & _).
  pose proof (OW i q1 f Q1 M1) as O1. pose proof (OW j q2 g Q2 M2) as O2. rewrite EQ in O1.
  assert (IJ : i = j) by exact (eq_trans (eq_sym O1) O2). clear O1 O2. subst j.
  assert (FG : f = g).
  { clear - ND I1 I2. induction o as [|[k h] o IH]; [destruct I1|]. simpl in ND. inversion ND as [|x l N ND']. subst.
    destruct I1 as [E1 | I1], I2 as [E2 | I2].
    - congruence.
    - injection E1 as -> ->. exfalso. apply N. apply in_map_iff. exists (i, g). split; [reflexivity | assumption].
    - injection E2 as -> ->. exfalso. apply N. apply in_map_iff. exists (i, f). split; [reflexivity | assumption].
    - apply IH; auto. }
  subst g. rewrite E in NDW. inversion NDW as [|x l' NN _]. apply NN. left. reflexivity.
Qed.

(** ** Histories *)

Lemma replace_concat : forall i (s : list (list frame)) q q', nth_error s i = Some q ->
  forall extra, Permutation (q' ++ extra) q -> Permutation (concat (replace_nth i q' s) ++ extra) (concat s).
Proof.
  induction i as [|i IH]; intros [|a s] q q' Q extra P; try discriminate Q.
  - simpl in *. injection Q as ->. 
    transitivity ((q' ++ extra) ++ concat s); [|apply Permutation_app_tail; exact P].
    rewrite <- !app_assoc. apply Permutation_app_head. apply Permutation_app_comm.
  - simpl in *. rewrite <- app_assoc. apply Permutation_app_head. apply (IH s q q' Q extra P).
Qed.

Lemma replace_concat_add : forall i (s : list (list frame)) q f, nth_error s i = Some q ->
  Permutation (concat (replace_nth i (f :: q) s)) (f :: concat s).
Proof.
  induction i as [|i IH]; intros [|a s] q f Q; try discriminate Q.
  - simpl in *. injection Q as ->. auto.
  - simpl in *. rewrite (IH s q f Q). symmetry. apply Permutation_middle.
Qed.

Lemma step_account : forall s e s', step s e s' ->
  Permutation (sent [e] ++ waiting s') (queued [e] ++ waiting s).
Proof.
  intros s e s' H. destruct H as [s i q f Q | s o i f q1 q2 O W Q]; unfold sent, queued, waiting; simpl.
  - apply replace_concat_add. exact Q.
  - transitivity (concat (replace_nth i (q1 ++ q2) s) ++ [f]); [apply Permutation_cons_append|].
    apply (replace_concat i s (q1 ++ f :: q2) (q1 ++ q2) Q [f]).
    rewrite <- app_assoc. apply Permutation_app_head. symmetry. apply Permutation_cons_append.
Qed.

Lemma steps_account : forall s h s', steps s h s' -> Permutation (sent h ++ waiting s') (queued h ++ waiting s).
Proof.
  intros s h s' H. induction H as [s | s e s1 h s2 H HS IH]; [reflexivity|].
  pose proof (step_account s e s1 H) as P.
  change (sent (e :: h)) with ((match e with Sent _ f => [f] | _ => [] end) ++ sent h).
  change (queued (e :: h)) with ((match e with Queued _ f => [f] | _ => [] end) ++ queued h).
  destruct e as [i f | i f]; unfold sent at 1, queued at 1 in P; simpl in P; simpl.
  - rewrite IH. rewrite P. rewrite Permutation_middle. reflexivity.
  - rewrite IH. rewrite <- P. rewrite Permutation_middle. reflexivity.
Qed.

Lemma step_own : forall owner s e s', step s e s' -> history_owns owner [e] -> queues_own owner s -> queues_own owner s'.
Proof.
  intros owner s e s' H HO OW. destruct H as [s i q f Q | s o i f q1 q2 O W Q]; intros j q' g Q' G;
    (assert (L : (i < length s)%nat) by (apply nth_error_Some; congruence));
    destruct (Nat.eq_dec i j) as [<- | N].
  - rewrite nth_error_replace_same in Q' by exact L. injection Q' as <-. destruct G as [<- | G].
    + apply HO. left. reflexivity.
    + apply (OW i q g Q G).
  - rewrite nth_error_replace_other in Q' by exact N. apply (OW j q' g Q' G).
  - rewrite nth_error_replace_same in Q' by exact L. injection Q' as <-. apply (OW i _ g Q).
    apply in_app_iff. apply in_app_iff in G. simpl. tauto.
  - rewrite nth_error_replace_other in Q' by exact N. apply (OW j q' g Q' G).
Qed.

Lemma steps_own : forall owner s h s', steps s h s' -> history_owns owner h -> queues_own owner s -> queues_own owner s'.
Proof.
  intros owner s h s' H. induction H as [s | s e s1 h s2 H HS IH]; intros HO OW; auto.
  apply IH; [intros i f F; apply HO; right; exact F|].
  apply (step_own owner s e s1 H); auto. intros i f [F | []]. apply HO. left. exact F.
Qed.

Lemma sent_highest : forall s i f s', step s (Sent i f) s' ->
  In f (waiting s) /\ forall g, In g (waiting s) -> priorityHigherThan g f = false.
Proof.
  intros s i f s' H. inversion H as [|s0 o j g q1 q2 O W Q E1 E2 E3]. subst. split.
  - apply in_concat. exists (q1 ++ f :: q2). split; [eapply nth_error_In; exact Q | apply in_elt].
  - intros g G. apply in_concat in G. destruct G as (q & Q' & G). apply In_nth_error in Q'. destruct Q' as (j & Q').
    apply (winner_highest s o i f O) with (j := j) (q := q); auto. rewrite W. left. reflexivity.
Qed.

Lemma progress : forall owner s, queues_own owner s -> waiting s <> [] -> exists i f s', step s (Sent i f) s'.
Proof.
  intros owner s OW N. destruct (offering_exists s) as (o & O).
  assert (NO : o <> []).
  { intros ->. destruct O as (_ & _ & ALL). apply N. unfold waiting. apply concat_nil_Forall. apply Forall_forall.
    intros q Q. apply In_nth_error in Q. destruct Q as (i & Q). destruct q as [|a q]; auto. exfalso.
    destruct (ALL i (a :: q) Q) as (f & []). discriminate. }
  destruct (one_winner owner s o OW O NO) as (i & f & W).
  assert (I1 : In (i, f) o) by (apply (proj1 (winners_in o i f)); rewrite W; left; reflexivity).
  pose proof O as (_ & OF & _). destruct (OF i f I1) as (q & Q & IQ & _). apply in_split in IQ. destruct IQ as (q1 & q2 & ->).
  exists i, f, (replace_nth i (q1 ++ q2) s). apply (step_send s o i f q1 q2); auto.
Qed.

Lemma step_pending : forall s e s' i q f, step s e s' -> nth_error s i = Some q -> In f q -> e <> Sent i f ->
  exists q', nth_error s' i = Some q' /\ In f q'.
Proof.
  intros s e s' i q f H Q F N. destruct H as [s j p g P | s o j g q1 q2 O W P];
    (assert (L : (j < length s)%nat) by (apply nth_error_Some; congruence));
    destruct (Nat.eq_dec j i) as [-> | NE].
  - rewrite nth_error_replace_same by exact L. exists (g :: p). split; auto. right. congruence.
  - rewrite nth_error_replace_other by exact NE. exists q. auto.
  - rewrite nth_error_replace_same by exact L. exists (q1 ++ q2). split; auto.
    assert (q = q1 ++ g :: q2) by congruence. subst q. apply in_app_iff in F. apply in_app_iff.
    destruct F as [F | [F | F]]; auto. subst g. congruence.
  - rewrite nth_error_replace_other by exact NE. exists q. auto.
Qed.

(** While [f] waits, what is sent is not less urgent. *)
Lemma while_waiting : forall s h s' i q f, steps s h s' -> nth_error s i = Some q -> In f q -> ~ In (Sent i f) h ->
  (forall g, In g (sent h) -> priorityHigherThan f g = false) /\ (exists q', nth_error s' i = Some q' /\ In f q').
Proof.
  intros s h s' i q f H. revert q. induction H as [s | s e s1 h s2 H HS IH]; intros q Q F N.
  - split; [intros g [] | exists q; auto].
  - destruct (step_pending s e s1 i q f H Q F) as (q' & Q' & F'); [intros ->; apply N; left; auto|].
    destruct (IH q' Q' F') as [IH1 IH2]; [intros X; apply N; right; exact X|].
    split; [|exact IH2]. intros g G. change (sent (e :: h)) with ((match e with Sent _ f => [f] | _ => [] end) ++ sent h) in G.
    apply in_app_iff in G. destruct G as [G | G]; [|apply IH1; exact G].
    destruct e as [j k | j k]; [destruct G|]. destruct G as [<- | []].
    apply (sent_highest s j k s1 H). unfold waiting. apply in_concat. exists q. split; auto. eapply nth_error_In. exact Q.
Qed.

Lemma filter_all : forall A (p : A -> bool) l, (forall x, In x l -> p x = true) -> List.filter p l = l.
Proof.
  induction l as [|a l IH]; intros H; simpl; auto. rewrite (H a) by (left; auto). rewrite IH; auto. intros; apply H; right; auto.
Qed.

Lemma filter_perm : forall A (p : A -> bool) l l', Permutation l l' -> Permutation (List.filter p l) (List.filter p l').
Proof.
  intros A p l l' H. induction H as [|x l l' H IH | x y l | l l' l'' H1 IH1 H2 IH2]; simpl; auto.
  - destruct (p x); auto.
  - destruct (p x), (p y); auto. apply perm_swap.
  - etransitivity; eauto.
Qed.

Lemma bounded_wait : forall s h s' i q f, steps s h s' -> nth_error s i = Some q -> In f q -> ~ In (Sent i f) h ->
  (length (sent h) < length (List.filter (fun g => negb (priorityHigherThan f g)) (waiting s ++ queued h)))%nat.
Proof.
  intros s h s' i q f H Q F N. destruct (while_waiting s h s' i q f H Q F N) as [W (q' & Q' & F')].
  pose proof (steps_account s h s' H) as P.
  assert (P2 : Permutation (waiting s ++ queued h) (sent h ++ waiting s')) by (rewrite P; apply Permutation_app_comm).
  rewrite (Permutation_length (filter_perm _ _ _ _ P2)). rewrite filter_app, app_length.
  rewrite (filter_all _ _ (sent h)) by (intros g G; rewrite (W g G); reflexivity).
  assert (IW : In f (List.filter (fun g => negb (priorityHigherThan f g)) (waiting s'))).
  { apply filter_In. split.
    - unfold waiting. apply in_concat. exists q'. split; auto. eapply nth_error_In. exact Q'.
    - rewrite higher_can_id, Z.ltb_irrefl. reflexivity. }
  destruct (List.filter _ (waiting s')) as [|x l]; [destruct IW|]. simpl. lia.
Qed.

(** Without new frames the bus sends by priority. *)
Lemma sorted_run : forall s h s', steps s h s' -> queued h = [] ->
  StronglySorted (fun f g => priorityHigherThan g f = false) (sent h).
Proof.
  intros s h s' H. induction H as [s | s e s1 h s2 H HS IH]; intros N; [constructor|].
  destruct e as [i f | i f]; [discriminate N|]. change (queued (Sent i f :: h)) with (queued h) in N.
  change (sent (Sent i f :: h)) with (f :: sent h). constructor; [apply IH; exact N|].
  apply Forall_forall. intros g G. apply (sent_highest s i f s1 H).
  pose proof (step_account s (Sent i f) s1 H) as P. unfold sent, queued in P. simpl in P.
  pose proof (steps_account s1 h s2 HS) as P2. rewrite N in P2. simpl in P2.
  apply (Permutation_in g P). right. apply (Permutation_in g P2). apply in_app_iff. left. exact G.
Qed.

Lemma drains : forall owner n s, length (waiting s) = n -> queues_own owner s ->
  exists h s', steps s h s' /\ queued h = [] /\ waiting s' = [].
Proof.
  intros owner. induction n as [|n IH]; intros s L OW.
  - exists [], s. repeat split; [constructor|]. apply length_zero_iff_nil. exact L.
  - destruct (progress owner s OW) as (i & f & s1 & H); [intros E; rewrite E in L; discriminate|].
    pose proof (Permutation_length (step_account s (Sent i f) s1 H)) as P. unfold sent, queued in P. simpl in P.
    destruct (IH s1) as (h & s2 & HS & Q & W); [lia | |].
    + apply (step_own owner s (Sent i f) s1 H); auto. intros j g [E | []]. discriminate.
    + exists (Sent i f :: h), s2. repeat split; auto. econstructor; eauto.
Qed.

(** When two nodes send at once. *)
Lemma collision_exactly : forall s, collision s <->
  exists i j qi qj f g, i <> j /\ nth_error s i = Some qi /\ nth_error s j = Some qj /\ In f qi /\ In g qj /\
    can_id f = can_id g /\ forall x, In x (waiting s) -> priorityHigherThan x f = false.
Proof.
  intros s. split.
  - intros (o & O & L). pose proof O as (ND & OF & ALL).
    destruct (winners o) as [|[i f] [|[j g] l]] eqn:E; try (simpl in L; lia).
    assert (W1 : In (i, f) (winners o)) by (rewrite E; left; auto).
    assert (W2 : In (j, g) (winners o)) by (rewrite E; right; left; auto).
    destruct (proj1 (winners_in o i f) W1) as [I1 H1]. destruct (proj1 (winners_in o j g) W2) as [I2 H2].
    destruct (OF i f I1) as (q1 & Q1 & M1 & _). destruct (OF j g I2) as (q2 & Q2 & M2 & _).
    exists i, j, q1, q2, f, g. repeat split; auto.
    + intros ->. assert (FG : f = g).
      { clear - ND I1 I2. induction o as [|[k h] o IH]; [destruct I1|]. simpl in ND. inversion ND as [|x l N ND']. subst.
        destruct I1 as [E1 | I1], I2 as [E2 | I2].
        - congruence.
        - injection E1 as -> ->. exfalso. apply N. apply in_map_iff. exists (j, g). split; [reflexivity | assumption].
        - injection E2 as -> ->. exfalso. apply N. apply in_map_iff. exists (j, f). split; [reflexivity | assumption].
        - apply IH; auto. }
      subst g. assert (NDW : NoDup (winners o)) by (apply winners_nodup; eapply NoDup_map_inv; exact ND).
      rewrite E in NDW. inversion NDW as [|x l' NN _]. apply NN. left. reflexivity.
    + specialize (H1 j g I2). specialize (H2 i f I1). rewrite higher_can_id in H1, H2. apply Z.ltb_ge in H1, H2. lia.
    + intros x X. apply in_concat in X. destruct X as (q & Q & X). apply In_nth_error in Q. destruct Q as (k & Q).
      apply (winner_highest s o i f O W1 k q x Q X).
  - intros (i & j & qi & qj & f & g & NE & Qi & Qj & F & G & EQ & MIN).
    destruct (offering_exists s) as (o & O). exists o. split; auto. pose proof O as (ND & OF & ALL).
    assert (W : forall k q h, nth_error s k = Some q -> In h q -> can_id h = can_id f ->
                exists t, In (k, t) (winners o)).
    { intros k q h Q H E. destruct (ALL k q Q) as (t & T); [intros ->; destruct H|]. exists t.
      apply (proj2 (winners_in o k t)). split; auto. intros m x X.
      destruct (OF k t T) as (q' & Q' & _ & TOP). rewrite Q in Q'. injection Q' as <-. specialize (TOP h H).
      destruct (OF m x X) as (qx & Qx & MX & _).
      assert (WX : In x (waiting s)) by (apply in_concat; exists qx; split; auto; eapply nth_error_In; exact Qx).
      specialize (MIN x WX). rewrite higher_can_id in *. rewrite lt_can_id in TOP. apply Z.ltb_ge in MIN, TOP. apply Z.ltb_ge. lia. }
    destruct (W i qi f Qi F eq_refl) as (t1 & T1). destruct (W j qj g Qj G (eq_sym EQ)) as (t2 & T2).
    destruct (winners o) as [|a [|b l]]; [destruct T1 | | simpl; lia].
    destruct T1 as [-> | []], T2 as [E2 | []]. injection E2 as E2 _. congruence.
Qed.
