(** Proofs about generated constants. *)
From Coq Require Import ZArith Bool List Lia.
From Verif Require Import TemplateModel TemplateSpec.
Open Scope Z_scope.

Lemma convert_holds : forall t v, holds t v -> convert t v = v.
Proof.
  intros [w|w] v [W H]; cbn [convert].
  - now apply Z.mod_small.
  - assert (2 ^ w = 2 * 2 ^ (w - 1)) by (rewrite <- Z.pow_succ_r by lia; f_equal; lia). rewrite Z.mod_small; lia.
Qed.

Lemma literal_spec : forall n, literal n = if Z.abs n <? 2 ^ 63 then Some n else None.
Proof. reflexivity. Qed.

Lemma initializer_eq : forall num den, 0 < den ->
  initializer num den = if (Z.abs num <? 2 ^ 63) && (den <? 2 ^ 63) then Some (Z.quot num den) else None.
Proof.
  intros num den D. unfold initializer. rewrite !literal_spec, (Z.abs_eq den) by lia.
  destruct (Z.abs num <? 2 ^ 63), (den <? 2 ^ 63); cbn [andb]; auto. destruct (Z.eqb_spec den 0); [lia|reflexivity].
Qed.

Lemma quot_exact : forall num den, 0 < den -> Z.gcd num den = 1 -> (Z.quot num den * den = num <-> den = 1).
Proof.
  intros num den D G. split.
  - intros E. assert (Dv : (den | num)) by (exists (Z.quot num den); lia).
    assert (Z.divide den (Z.gcd num den)) by (apply Z.gcd_greatest; auto; exists 1; lia). rewrite G in H.
    apply Z.divide_pos_le in H; lia.
  - intros ->. rewrite Z.quot_1_r. lia.
Qed.

Lemma initializer_truncates : forall num den, 0 < den -> Z.gcd num den = 1 ->
  (initializer num den = None <-> 2 ^ 63 <= Z.abs num \/ 2 ^ 63 <= den) /\
  (forall v, initializer num den = Some v ->
     (v * den = num <-> den = 1) /\ Z.abs v * den <= Z.abs num < (Z.abs v + 1) * den /\ 0 <= v * num).
Proof.
  intros num den D G. rewrite initializer_eq by auto. split.
  - destruct (Z.ltb_spec (Z.abs num) (2 ^ 63)), (Z.ltb_spec den (2 ^ 63)); cbn [andb]; split; intros; try discriminate; try reflexivity; lia.
  - intros v. destruct (_ && _); [|discriminate]. intros E. injection E as <-. split; [now apply quot_exact|].
    assert (Q := Z.quot_rem' num den). assert (Rb := Z.rem_bound_abs num den ltac:(lia)).
    rewrite <- Z.quot_abs by lia. rewrite (Z.abs_eq den) in * by lia.
    assert (Q2 := Z.quot_rem' (Z.abs num) den). assert (Rb2 := Z.rem_bound_pos (Z.abs num) den ltac:(lia) ltac:(lia)).
    split; [lia|]. destruct (Z.le_gt_cases 0 num).
    + assert (0 <= Z.quot num den) by (apply Z.quot_pos; lia). nia.
    + assert (E : Z.quot num den = - Z.quot (- num) den) by (rewrite Z.quot_opp_l by lia; lia).
      assert (0 <= Z.quot (- num) den) by (apply Z.quot_pos; lia). rewrite E. nia.
Qed.

Lemma constant_integers : forall t num, holds t num -> Z.abs num < 2 ^ 63 -> constant t num 1 = Some num.
Proof.
  intros t num H B. unfold constant. rewrite initializer_eq by lia.
  destruct (Z.ltb_spec (Z.abs num) (2 ^ 63)); [|lia]. change (1 <? 2 ^ 63) with true. cbn [andb]. rewrite Z.quot_1_r.
  now rewrite convert_holds.
Qed.
Lemma constant_ill_formed : forall t num, 2 ^ 63 <= Z.abs num -> constant t num 1 = None.
Proof.
  intros t num H. unfold constant. rewrite initializer_eq by lia. destruct (Z.ltb_spec (Z.abs num) (2 ^ 63)); [lia|reflexivity].
Qed.
