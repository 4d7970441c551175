(** Proofs about the saturating arithmetic. *)
From Coq Require Import ZArith Bool Lia.
From Verif Require Import Outcome CInt SatMathSpec SatMathModel.
Open Scope Z_scope.

Ltac bcase :=
  match goal with
  | |- context [Z.leb ?a ?b] => destruct (Z.leb_spec a b)
  | |- context [Z.ltb ?a ?b] => destruct (Z.ltb_spec a b)
  | |- context [Z.eqb ?a ?b] => destruct (Z.eqb_spec a b)
  end.

Ltac ranges := unfold sin_range, uin_range, smin, smax, umax in *.

Lemma add_d_correct : forall P w l r,
  2 <= w -> sin_range w l -> 0 <= r <= smax w ->
  saturating_add_d P w l r = Ret (sclamp w (l + r)).
Proof.
  intros P w l r Hw Hl Hr. unfold saturating_add_d, sclamp, clamp.
  assert (0 < 2 ^ (w - 1)) by (apply pow_pos'; lia).
  destruct (Z.leb_spec 0 l); cbn [bind].
  - rewrite sarith_ret' by (ranges; lia). cbn [bind].
    destruct (Z.ltb_spec (smax w - l) r).
    + repeat bcase; ranges; (lia || f_equal; lia).
    + rewrite sarith_ret' by (ranges; lia). cbn [bind].
      rewrite scast_id by (ranges; lia).
      repeat bcase; ranges; (lia || f_equal; lia).
  - rewrite sarith_ret' by (ranges; lia). cbn [bind].
    rewrite scast_id by (ranges; lia).
    repeat bcase; ranges; (lia || f_equal; lia).
Qed.

(** The only operands for which [_saturating_sub_d] evaluates abs(MIN). *)
Definition hits_abs_min (P : platform) (w l : Z) : bool := (int_width P <=? w) && (l =? 0).

Lemma sub_d_correct : forall P w l r,
  wf_platform P -> 2 <= w -> sin_range w l -> 0 <= r <= smax w ->
  hits_abs_min P w l = false ->
  saturating_sub_d P w l r = Ret (sclamp w (l - r)).
Proof.
  intros P w l r [HP _] Hw Hl Hr Hz. unfold saturating_sub_d, sclamp, clamp.
  assert (0 < 2 ^ (w - 1)) by (apply pow_pos'; lia).
  destruct (Z.leb_spec l 0); cbn [bind].
  - rewrite sarith_ret' by (ranges; lia). cbn [bind].
    assert (Hne : smin w - l <> smin (promoted P w)).
    { unfold hits_abs_min in Hz. destruct (Z.leb_spec (int_width P) w).
      - rewrite promoted_wide by lia. cbn [andb] in Hz. apply Z.eqb_neq in Hz. lia.
      - rewrite promoted_narrow by lia. ranges.
        assert (2 ^ (w - 1) < 2 ^ (int_width P - 1)) by (apply Z.pow_lt_mono_r; lia). lia. }
    unfold cabs. apply Z.eqb_neq in Hne. rewrite Hne. cbn [bind].
    destruct (Z.leb_spec (Z.abs (smin w - l)) r).
    + repeat bcase; ranges; (lia || f_equal; lia).
    + rewrite sarith_ret' by (ranges; lia). cbn [bind].
      rewrite scast_id by (ranges; lia).
      repeat bcase; ranges; (lia || f_equal; lia).
  - rewrite sarith_ret' by (ranges; lia). cbn [bind].
    rewrite scast_id by (ranges; lia).
    repeat bcase; ranges; (lia || f_equal; lia).
Qed.

(** Behaviour at the abs(MIN) evaluation. *)
Lemma sub_d_zero : forall P w r,
  2 <= w -> int_width P <= w -> 0 <= r <= smax w ->
  saturating_sub_d P w 0 r =
    match abs_of_min P w with
    | None => UB
    | Some v => Ret (if v <=? r then smin w else - r)
    end.
Proof.
  intros P w r Hw HP Hr. unfold saturating_sub_d.
  assert (0 < 2 ^ (w - 1)) by (apply pow_pos'; lia).
  change (0 <=? 0) with true. cbn [bind].
  rewrite sarith_ret' by (ranges; lia). cbn [bind].
  unfold cabs. rewrite promoted_wide by lia. rewrite Z.sub_0_r, Z.eqb_refl.
  destruct (abs_of_min P w) as [v|]; cbn [bind]; [|reflexivity].
  destruct (Z.leb_spec v r); [reflexivity|].
  rewrite sarith_ret' by (ranges; lia). cbn [bind].
  rewrite scast_id by (ranges; lia). f_equal; lia.
Qed.

Lemma add_s_exact : forall P w l r,
  wf_platform P -> 2 <= w -> sin_range w l -> sin_range w r ->
  (int_width P <= w /\ l = 0 /\ r < 0 -> False) ->
  saturating_add_s P w l r = Ret (sclamp w (l + r)).
Proof.
  intros P w l r HP Hw Hl Hr Hno. unfold saturating_add_s.
  assert (Hp : 0 < 2 ^ (w - 1)) by (apply pow_pos'; lia).
  assert (Hp2 : 2 <= 2 ^ (w - 1)) by (replace 2 with (2 ^ 1) at 1 by reflexivity; apply Z.pow_le_mono_r; lia).
  destruct (Z.leb_spec 0 r).
  - apply add_d_correct; auto. ranges; lia.
  - assert (Hz : hits_abs_min P w l = false).
    { unfold hits_abs_min. destruct (Z.leb_spec (int_width P) w); [|reflexivity].
      destruct (Z.eqb_spec l 0); [|reflexivity]. exfalso; apply Hno; auto. }
    destruct (Z.eqb_spec r (smin w)).
    + rewrite sub_d_correct; auto; [|ranges; lia]. cbn [bind]. subst r.
      unfold sclamp, clamp.
      repeat bcase; cbn [bind]; ranges; try lia; try (f_equal; lia);
        rewrite sarith_ret' by (ranges; lia); cbn [bind];
        rewrite scast_id by (ranges; lia); f_equal; lia.
    + rewrite sarith_ret' by (ranges; lia). cbn [bind].
      rewrite scast_id by (ranges; lia).
      rewrite sub_d_correct by (auto; ranges; lia).
      f_equal. f_equal. lia.
Qed.

Lemma sub_s_exact : forall P w l r,
  wf_platform P -> 2 <= w -> sin_range w l -> sin_range w r ->
  (int_width P <= w /\ l = 0 /\ 0 <= r -> False) ->
  saturating_sub_s P w l r = Ret (sclamp w (l - r)).
Proof.
  intros P w l r HP Hw Hl Hr Hno. unfold saturating_sub_s.
  assert (Hp : 0 < 2 ^ (w - 1)) by (apply pow_pos'; lia).
  assert (Hp2 : 2 <= 2 ^ (w - 1)) by (replace 2 with (2 ^ 1) at 1 by reflexivity; apply Z.pow_le_mono_r; lia).
  destruct (Z.leb_spec 0 r).
  - apply sub_d_correct; auto; [ranges; lia|].
    unfold hits_abs_min. destruct (Z.leb_spec (int_width P) w); [|reflexivity].
    destruct (Z.eqb_spec l 0); [|reflexivity]. exfalso; apply Hno; auto.
  - destruct (Z.eqb_spec r (smin w)).
    + rewrite add_d_correct; auto; [|ranges; lia]. cbn [bind]. subst r.
      unfold sclamp, clamp.
      repeat bcase; cbn [bind]; ranges; try lia; try (f_equal; lia);
        rewrite sarith_ret' by (ranges; lia); cbn [bind];
        rewrite scast_id by (ranges; lia); f_equal; lia.
    + rewrite sarith_ret' by (ranges; lia). cbn [bind].
      rewrite scast_id by (ranges; lia).
      rewrite add_d_correct by (auto; ranges; lia).
      f_equal.
Qed.

Lemma add_s_zero : forall P w r,
  2 <= w -> int_width P <= w -> sin_range w r -> r < 0 ->
  saturating_add_s P w 0 r =
    match abs_of_min P w with
    | None => UB
    | Some v =>
        Ret (if r =? smin w
             then smin w
             else if v <=? - r then smin w else r)
    end.
Proof.
  intros P w r Hw HP Hr Hneg. unfold saturating_add_s.
  assert (Hp : 0 < 2 ^ (w - 1)) by (apply pow_pos'; lia).
  assert (Hp2 : 2 <= 2 ^ (w - 1)) by (replace 2 with (2 ^ 1) at 1 by reflexivity; apply Z.pow_le_mono_r; lia).
  destruct (Z.leb_spec 0 r); [lia|].
  destruct (Z.eqb_spec r (smin w)).
  - rewrite sub_d_zero by (auto; ranges; lia).
    destruct (abs_of_min P w) as [v|]; cbn [bind]; [|reflexivity].
    destruct (Z.leb_spec v (smax w)).
    + destruct (Z.ltb_spec (smin w) (smin w)); [lia|reflexivity].
    + destruct (Z.ltb_spec (smin w) (- smax w)); [|ranges; lia].
      rewrite sarith_ret' by (ranges; lia). cbn [bind].
      rewrite scast_id by (ranges; lia). f_equal. ranges; lia.
  - rewrite sarith_ret' by (ranges; lia). cbn [bind].
    rewrite scast_id by (ranges; lia).
    rewrite sub_d_zero by (auto; ranges; lia).
    destruct (abs_of_min P w) as [v|]; [|reflexivity].
    destruct (Z.leb_spec v (- r)); f_equal; lia.
Qed.

Lemma sub_s_zero : forall P w r,
  2 <= w -> int_width P <= w -> sin_range w r -> 0 <= r ->
  saturating_sub_s P w 0 r =
    match abs_of_min P w with
    | None => UB
    | Some v => Ret (if v <=? r then smin w else - r)
    end.
Proof.
  intros P w r Hw HP Hr Hpos. unfold saturating_sub_s.
  destruct (Z.leb_spec 0 r); [|lia].
  apply sub_d_zero; auto. ranges; lia.
Qed.

(** ** Unsigned *)

Lemma uarith_small : forall P w x,
  wf_platform P -> 1 <= w -> uin_range w x -> uarith P w x = Ret x.
Proof.
  intros P w x [HP _] Hw Hx. unfold uarith.
  destruct (Z.ltb_spec w (int_width P)).
  - assert (sin_range (int_width P) x) as Hs.
    { ranges. assert (2 ^ w <= 2 ^ (int_width P - 1)) by (apply Z.pow_le_mono_r; lia). lia. }
    apply sin_rangeb_spec in Hs. now rewrite Hs.
  - rewrite Z.mod_small by (ranges; lia). reflexivity.
Qed.

Lemma add_u_exact : forall P w l r,
  wf_platform P -> 1 <= w -> uin_range w l -> uin_range w r ->
  saturating_add_u P w l r = Ret (uclamp w (l + r)).
Proof.
  intros P w l r HP Hw Hl Hr. unfold saturating_add_u, uclamp, clamp.
  rewrite uarith_small by (auto; ranges; lia). cbn [bind].
  rewrite ucast_id by (ranges; lia).
  destruct (Z.ltb_spec (umax w - l) r).
  - repeat bcase; ranges; (lia || f_equal; lia).
  - rewrite uarith_small by (auto; ranges; lia). cbn [bind].
    rewrite ucast_id by (ranges; lia).
    repeat bcase; ranges; (lia || f_equal; lia).
Qed.

Lemma sub_u_exact : forall P w l r,
  wf_platform P -> 1 <= w -> uin_range w l -> uin_range w r ->
  saturating_sub_u P w l r = Ret (uclamp w (l - r)).
Proof.
  intros P w l r HP Hw Hl Hr. unfold saturating_sub_u, uclamp, clamp.
  destruct (Z.ltb_spec l r).
  - repeat bcase; ranges; (lia || f_equal; lia).
  - rewrite uarith_small by (auto; ranges; lia). cbn [bind].
    rewrite ucast_id by (ranges; lia).
    repeat bcase; ranges; (lia || f_equal; lia).
Qed.

(** ** Mixed signedness *)

Lemma add_us_value : forall P w l r,
  wf_platform P -> 1 <= w -> uin_range w l ->
  saturating_add_us P w l r =
    Ret (if 0 <=? r then uclamp w (l + r mod 2 ^ w) else uclamp w (l - r mod 2 ^ w)).
Proof.
  intros P w l r HP Hw Hl. unfold saturating_add_us.
  pose proof (ucast_range w r ltac:(lia)) as Hc.
  destruct (Z.leb_spec 0 r).
  - rewrite add_u_exact by auto. reflexivity.
  - rewrite sub_u_exact by auto. reflexivity.
Qed.

Lemma sub_us_value : forall P w l r,
  wf_platform P -> 1 <= w -> uin_range w l ->
  saturating_sub_us P w l r =
    Ret (if 0 <=? r then uclamp w (l - r mod 2 ^ w) else uclamp w (l + r mod 2 ^ w)).
Proof.
  intros P w l r HP Hw Hl. unfold saturating_sub_us.
  pose proof (ucast_range w r ltac:(lia)) as Hc.
  destruct (Z.leb_spec 0 r).
  - rewrite sub_u_exact by auto. reflexivity.
  - rewrite add_u_exact by auto. reflexivity.
Qed.

Lemma neg_mod : forall w r, 1 <= w -> sin_range w r -> r < 0 -> r mod 2 ^ w = r + 2 ^ w.
Proof.
  intros w r Hw Hr Hn. pose proof (pow_split w Hw).
  rewrite <- (Z.mod_add r 1 (2 ^ w)) by (pose proof (pow_pos' w); lia).
  rewrite Z.mul_1_l, Z.mod_small by (ranges; lia). reflexivity.
Qed.

Lemma add_us_nonneg : forall P w l r,
  wf_platform P -> 1 <= w -> uin_range w l -> 0 <= r <= umax w ->
  saturating_add_us P w l r = Ret (uclamp w (l + r)).
Proof.
  intros. rewrite add_us_value by auto. destruct (Z.leb_spec 0 r); [|lia].
  rewrite Z.mod_small by (ranges; lia). reflexivity.
Qed.

Lemma sub_us_nonneg : forall P w l r,
  wf_platform P -> 1 <= w -> uin_range w l -> 0 <= r <= umax w ->
  saturating_sub_us P w l r = Ret (uclamp w (l - r)).
Proof.
  intros. rewrite sub_us_value by auto. destruct (Z.leb_spec 0 r); [|lia].
  rewrite Z.mod_small by (ranges; lia). reflexivity.
Qed.

(** Exact description for negative right operands of the same width: the operand acts as if it were the distance to
    wrap-around. *)
Lemma add_us_neg : forall P w l r,
  wf_platform P -> 1 <= w -> uin_range w l -> sin_range w r -> r < 0 ->
  saturating_add_us P w l r = Ret (if l <? 2 ^ w + r then 0 else l - (2 ^ w + r)).
Proof.
  intros P w l r HP Hw Hl Hr Hn. rewrite add_us_value by auto.
  destruct (Z.leb_spec 0 r); [lia|]. rewrite neg_mod by auto.
  pose proof (pow_split w Hw).
  unfold uclamp, clamp. repeat bcase; ranges; (lia || f_equal; lia).
Qed.

Lemma sub_us_neg : forall P w l r,
  wf_platform P -> 1 <= w -> uin_range w l -> sin_range w r -> r < 0 ->
  saturating_sub_us P w l r = Ret (if umax w <? l + (2 ^ w + r) then umax w else l + (2 ^ w + r)).
Proof.
  intros P w l r HP Hw Hl Hr Hn. rewrite sub_us_value by auto.
  destruct (Z.leb_spec 0 r); [lia|]. rewrite neg_mod by auto.
  pose proof (pow_split w Hw).
  unfold uclamp, clamp. repeat bcase; ranges; (lia || f_equal; lia).
Qed.

Lemma add_us_correct_iff : forall P w l r,
  wf_platform P -> 1 <= w -> uin_range w l -> sin_range w r ->
  (saturating_add_us P w l r = Ret (uclamp w (l + r)) <-> 0 <= r \/ r = smin w \/ l + r <= 0).
Proof.
  intros P w l r HP Hw Hl Hr. pose proof (pow_split w Hw).
  assert (0 < 2 ^ (w - 1)) by (apply pow_pos'; lia).
  destruct (Z_lt_le_dec r 0).
  - rewrite add_us_neg by auto. unfold uclamp, clamp.
    split.
    + intros E. repeat bcase; ranges;
      repeat match type of E with context [Z.ltb ?a ?b] => destruct (Z.ltb_spec a b) end;
      try (injection E as E); lia.
    + intros D. repeat bcase; ranges; (lia || f_equal; lia).
  - rewrite add_us_nonneg by (auto; ranges; lia). intuition.
Qed.

Lemma sub_us_correct_iff : forall P w l r,
  wf_platform P -> 1 <= w -> uin_range w l -> sin_range w r ->
  (saturating_sub_us P w l r = Ret (uclamp w (l - r)) <-> 0 <= r \/ r = smin w \/ umax w <= l - r).
Proof.
  intros P w l r HP Hw Hl Hr. pose proof (pow_split w Hw).
  assert (0 < 2 ^ (w - 1)) by (apply pow_pos'; lia).
  destruct (Z_lt_le_dec r 0).
  - rewrite sub_us_neg by auto. unfold uclamp, clamp.
    split.
    + intros E. repeat bcase; ranges;
      repeat match type of E with context [Z.ltb ?a ?b] => destruct (Z.ltb_spec a b) end;
      try (injection E as E); lia.
    + intros D. repeat bcase; ranges; (lia || f_equal; lia).
  - rewrite sub_us_nonneg by (auto; ranges; lia). intuition.
Qed.

Lemma sclamp_range : forall w x, 1 <= w -> sin_range w (sclamp w x).
Proof.
  intros w x Hw. assert (0 < 2 ^ (w - 1)) by (apply pow_pos'; lia).
  unfold sclamp, clamp. repeat bcase; ranges; lia.
Qed.

Lemma uclamp_range : forall w x, 0 <= w -> uin_range w (uclamp w x).
Proof.
  intros w x Hw. assert (0 < 2 ^ w) by (apply pow_pos'; lia).
  unfold uclamp, clamp. repeat bcase; ranges; lia.
Qed.

(** ** Composite statements used by Props_SatMath *)

Lemma lp64_wf : wf_platform lp64.
Proof. split; simpl; [lia|discriminate]. Qed.

Lemma lp64_wrapping_wf : forall w, 32 <= w -> sin_range w (smin w).
Proof. intros. assert (0 < 2 ^ (w - 1)) by (apply pow_pos'; lia). ranges; lia. Qed.

Lemma add_s_partial : forall P w l r,
  wf_platform P -> 2 <= w -> sin_range w l -> sin_range w r ->
  l <> 0 \/ 0 <= r \/ w < int_width P ->
  saturating_add_s P w l r = Ret (sclamp w (l + r)).
Proof. intros P w l r HP Hw Hl Hr D. apply add_s_exact; auto. intros [? [? ?]]. lia. Qed.

Lemma sub_s_partial : forall P w l r,
  wf_platform P -> 2 <= w -> sin_range w l -> sin_range w r ->
  l <> 0 \/ r < 0 \/ w < int_width P ->
  saturating_sub_s P w l r = Ret (sclamp w (l - r)).
Proof. intros P w l r HP Hw Hl Hr D. apply sub_s_exact; auto. intros [? [? ?]]. lia. Qed.

Lemma add_s_undefined : forall P w r,
  2 <= w -> int_width P <= w -> abs_of_min P w = None -> sin_range w r -> r < 0 ->
  saturating_add_s P w 0 r = UB.
Proof. intros. rewrite add_s_zero by auto. now rewrite H1. Qed.

Lemma sub_s_undefined : forall P w r,
  2 <= w -> int_width P <= w -> abs_of_min P w = None -> sin_range w r -> 0 <= r ->
  saturating_sub_s P w 0 r = UB.
Proof. intros. rewrite sub_s_zero by auto. now rewrite H1. Qed.

Lemma add_s_iff : forall P w l r,
  wf_platform P -> abs_of_min P w = None -> 2 <= w -> sin_range w l -> sin_range w r ->
  (saturating_add_s P w l r = UB <-> int_width P <= w /\ l = 0 /\ r < 0) /\
  (forall v, saturating_add_s P w l r = Ret v -> v = sclamp w (l + r)).
Proof.
  intros P w l r HP HN Hw Hl Hr.
  assert (D : (int_width P <= w /\ l = 0 /\ r < 0) \/ (int_width P <= w /\ l = 0 /\ r < 0 -> False)) by lia.
  destruct D as [D|D].
  - destruct D as [D1 [-> D3]]. rewrite add_s_undefined by auto.
    split; [tauto|discriminate].
  - rewrite add_s_exact by auto. split; [|intros v E; congruence].
    split; [discriminate|intros H; exfalso; auto].
Qed.

Lemma sub_s_iff : forall P w l r,
  wf_platform P -> abs_of_min P w = None -> 2 <= w -> sin_range w l -> sin_range w r ->
  (saturating_sub_s P w l r = UB <-> int_width P <= w /\ l = 0 /\ 0 <= r) /\
  (forall v, saturating_sub_s P w l r = Ret v -> v = sclamp w (l - r)).
Proof.
  intros P w l r HP HN Hw Hl Hr.
  assert (D : (int_width P <= w /\ l = 0 /\ 0 <= r) \/ (int_width P <= w /\ l = 0 /\ 0 <= r -> False)) by lia.
  destruct D as [D|D].
  - destruct D as [D1 [-> D3]]. rewrite sub_s_undefined by auto.
    split; [tauto|discriminate].
  - rewrite sub_s_exact by auto. split; [|intros v E; congruence].
    split; [discriminate|intros H; exfalso; auto].
Qed.

(** On every platform, whatever abs(MIN) does: deviations occur only at left = 0 in the downward direction. *)
Lemma add_s_deviation : forall P w l r,
  wf_platform P -> 2 <= w -> sin_range w l -> sin_range w r ->
  saturating_add_s P w l r <> Ret (sclamp w (l + r)) -> int_width P <= w /\ l = 0 /\ r < 0.
Proof.
  intros P w l r HP Hw Hl Hr HN.
  assert (D : (int_width P <= w /\ l = 0 /\ r < 0) \/ (int_width P <= w /\ l = 0 /\ r < 0 -> False)) by lia.
  destruct D as [D|D]; [exact D|]. exfalso. apply HN. apply add_s_exact; auto.
Qed.

Lemma sub_s_deviation : forall P w l r,
  wf_platform P -> 2 <= w -> sin_range w l -> sin_range w r ->
  saturating_sub_s P w l r <> Ret (sclamp w (l - r)) -> int_width P <= w /\ l = 0 /\ 0 <= r.
Proof.
  intros P w l r HP Hw Hl Hr HN.
  assert (D : (int_width P <= w /\ l = 0 /\ 0 <= r) \/ (int_width P <= w /\ l = 0 /\ 0 <= r -> False)) by lia.
  destruct D as [D|D]; [exact D|]. exfalso. apply HN. apply sub_s_exact; auto.
Qed.

Lemma no_abs_min_repairs : forall P w,
  wf_platform P -> 2 <= w -> int_width P <= w ->
  (exists r, sin_range w r /\ 0 <= r /\ saturating_sub_s P w 0 r <> Ret (sclamp w (0 - r))) /\
  (exists r, sin_range w r /\ r < 0 /\ saturating_add_s P w 0 r <> Ret (sclamp w (0 + r))).
Proof.
  intros P w HP Hw Hi.
  assert (Hp2 : 2 <= 2 ^ (w - 1)) by (replace 2 with (2 ^ 1) at 1 by reflexivity; apply Z.pow_le_mono_r; lia).
  split.
  - exists (smax w). assert (sin_range w (smax w)) by (ranges; lia).
    split; [auto|]. split; [ranges; lia|].
    rewrite sub_s_zero by (auto; ranges; lia).
    destruct (abs_of_min P w) as [v|] eqn:E; [|discriminate].
    destruct HP as [_ HP]. apply HP in E.
    destruct (Z.leb_spec v (smax w)); [|ranges; lia].
    intros C. injection C as C. unfold sclamp, clamp in C.
    repeat match type of C with context [Z.ltb ?a ?b] => destruct (Z.ltb_spec a b) end; ranges; lia.
  - exists (- smax w). assert (sin_range w (- smax w)) by (ranges; lia).
    split; [auto|]. split; [ranges; lia|].
    rewrite add_s_zero by (auto; ranges; lia).
    destruct (abs_of_min P w) as [v|] eqn:E; [|discriminate].
    destruct HP as [_ HP]. apply HP in E.
    destruct (Z.eqb_spec (- smax w) (smin w)); [ranges; lia|].
    destruct (Z.leb_spec v (- - smax w)); [|ranges; lia].
    intros C. injection C as C. unfold sclamp, clamp in C.
    repeat match type of C with context [Z.ltb ?a ?b] => destruct (Z.ltb_spec a b) end; ranges; lia.
Qed.

Lemma wrapping_abs_gives_min : forall P w r,
  2 <= w -> int_width P <= w -> abs_of_min P w = Some (smin w) -> sin_range w r ->
  (0 <= r -> saturating_sub_s P w 0 r = Ret (smin w)) /\
  (r < 0 -> saturating_add_s P w 0 r = Ret (smin w)).
Proof.
  intros P w r Hw Hi Ha Hr.
  assert (0 < 2 ^ (w - 1)) by (apply pow_pos'; lia). split; intros H0.
  - rewrite sub_s_zero by auto. rewrite Ha. destruct (Z.leb_spec (smin w) r); [reflexivity|ranges; lia].
  - rewrite add_s_zero by auto. rewrite Ha.
    destruct (Z.eqb_spec r (smin w)); [reflexivity|].
    destruct (Z.leb_spec (smin w) (- r)); [reflexivity|ranges; lia].
Qed.

(** ** bool *)

Lemma add_b_exact : forall P l r, wf_platform P -> 0 <= l <= 1 -> 0 <= r <= 1 ->
  saturating_add_b P l r = Ret (Z.min 1 (l + r)).
Proof.
  intros P l r [HP _] Hl Hr. unfold saturating_add_b, sarith.
  assert (A : forall x, -1 <= x <= 2 -> sin_rangeb (promoted P 1) x = true).
  { intros x Hx. apply sin_rangeb_spec. apply (sin_range_mono 16); [lia| |].
    - unfold promoted. lia.
    - split; [transitivity (-1)|transitivity 2]; try lia; vm_compute; discriminate. }
  rewrite !A by lia. cbn [bind].
  assert (E : l = 0 \/ l = 1) by lia. assert (F : r = 0 \/ r = 1) by lia.
  destruct E as [-> | ->]; destruct F as [-> | ->]; reflexivity.
Qed.

Lemma sub_b_exact : forall P l r, wf_platform P -> 0 <= l <= 1 -> 0 <= r <= 1 ->
  saturating_sub_b P l r = Ret (Z.max 0 (l - r)).
Proof.
  intros P l r [HP _] Hl Hr. unfold saturating_sub_b, sarith.
  assert (A : forall x, -1 <= x <= 2 -> sin_rangeb (promoted P 1) x = true).
  { intros x Hx. apply sin_rangeb_spec. apply (sin_range_mono 16); [lia| |].
    - unfold promoted. lia.
    - split; [transitivity (-1)|transitivity 2]; try lia; vm_compute; discriminate. }
  rewrite !A by lia. cbn [bind].
  assert (E : l = 0 \/ l = 1) by lia. assert (F : r = 0 \/ r = 1) by lia.
  destruct E as [-> | ->]; destruct F as [-> | ->]; reflexivity.
Qed.

(** Right operand of any width. *)
Lemma mixed_add_any_width : forall P w l r, wf_platform P -> 1 <= w -> uin_range w l ->
  (saturating_add_us P w l r = Ret (uclamp w (l + r)) <->
   0 <= r <= umax w \/ r = - 2 ^ (w - 1) \/
   (umax w < r /\ umax w <= l + r mod 2 ^ w) \/ (r < 0 /\ l + r <= 0 /\ l <= r mod 2 ^ w)).
Proof.
  intros P w l r WP W L. unfold saturating_add_us.
  assert (0 < 2 ^ w) as B by (apply Z.pow_pos_nonneg; lia).
  pose proof (Z.mod_pos_bound r (2 ^ w) B) as M.
  assert (uin_range w (ucast w r)) as UR by (unfold uin_range, ucast, umax; lia).
  unfold uin_range, umax in L, UR. unfold ucast in *.
  assert (2 ^ w = 2 * 2 ^ (w - 1)) as HW by (rewrite <- Z.pow_succ_r by lia; f_equal; lia).
  destruct (Z.leb_spec 0 r).
  - rewrite add_u_exact by (assumption || unfold uin_range, umax; lia).
    unfold uclamp, clamp, umax in *. split.
    + intro H1. injection H1 as H1. revert H1.
      repeat match goal with |- context [?a <? ?b] => destruct (Z.ltb_spec a b) end; intros; try lia.
      all: destruct (Z.le_gt_cases r (2 ^ w - 1)); lia.
    + intros [H1 | [H1 | [H1 | H1]]]; try lia.
      * rewrite Z.mod_small by lia. reflexivity.
      * f_equal. repeat match goal with |- context [?a <? ?b] => destruct (Z.ltb_spec a b) end; lia.
  - rewrite sub_u_exact by (assumption || unfold uin_range, umax; lia).
    assert (r mod 2 ^ w = - r -> r = - 2 ^ (w - 1)) as K.
    { intro E. pose proof (Z.div_mod r (2 ^ w) ltac:(lia)). 
      assert (2 * r = 2 ^ w * (r / 2 ^ w)) by lia.
      assert (r / 2 ^ w = -1) as Q by nia. rewrite Q in *. lia. }
    unfold uclamp, clamp, umax in *. split.
    + intro H1. injection H1 as H1. revert H1.
      repeat match goal with |- context [?a <? ?b] => destruct (Z.ltb_spec a b) end; intros; try lia.
    + intros [H1 | [H1 | [H1 | H1]]]; try lia.
      * assert (r mod 2 ^ w = 2 ^ (w - 1)) as ->.
        { subst r. replace (- 2 ^ (w - 1)) with (2 ^ (w - 1) + (-1) * 2 ^ w) by lia. rewrite Z.mod_add by lia. apply Z.mod_small. lia. }
        subst r. reflexivity.
      * f_equal. repeat match goal with |- context [?a <? ?b] => destruct (Z.ltb_spec a b) end; lia.
Qed.
Lemma mixed_sub_any_width : forall P w l r, wf_platform P -> 1 <= w -> uin_range w l ->
  (saturating_sub_us P w l r = Ret (uclamp w (l - r)) <->
   0 <= r <= umax w \/ r = - 2 ^ (w - 1) \/
   (umax w < r /\ l <= r mod 2 ^ w) \/ (r < 0 /\ umax w <= l - r /\ umax w <= l + r mod 2 ^ w)).
Proof.
  intros P w l r WP W L. unfold saturating_sub_us.
  assert (0 < 2 ^ w) as B by (apply Z.pow_pos_nonneg; lia).
  pose proof (Z.mod_pos_bound r (2 ^ w) B) as M.
  unfold uin_range, umax in L. unfold ucast.
  assert (2 ^ w = 2 * 2 ^ (w - 1)) as HW by (rewrite <- Z.pow_succ_r by lia; f_equal; lia).
  destruct (Z.leb_spec 0 r).
  - rewrite sub_u_exact by (assumption || unfold uin_range, umax; lia).
    unfold uclamp, clamp, umax in *. split.
    + intro H1. injection H1 as H1. revert H1.
      repeat match goal with |- context [?a <? ?b] => destruct (Z.ltb_spec a b) end; intros; try lia.
    + intros [H1 | [H1 | [H1 | H1]]]; try lia.
      * rewrite Z.mod_small by lia. reflexivity.
      * f_equal. repeat match goal with |- context [?a <? ?b] => destruct (Z.ltb_spec a b) end; lia.
  - rewrite add_u_exact by (assumption || unfold uin_range, umax; lia).
    assert (r mod 2 ^ w = - r -> r = - 2 ^ (w - 1)) as K.
    { intro E. pose proof (Z.div_mod r (2 ^ w) ltac:(lia)).
      assert (2 * r = 2 ^ w * (r / 2 ^ w)) by lia.
      assert (r / 2 ^ w = -1) as Q by nia. rewrite Q in *. lia. }
    unfold uclamp, clamp, umax in *. split.
    + intro H1. injection H1 as H1. revert H1.
      repeat match goal with |- context [?a <? ?b] => destruct (Z.ltb_spec a b) end; intros; try lia.
    + intros [H1 | [H1 | [H1 | H1]]]; try lia.
      * assert (r mod 2 ^ w = 2 ^ (w - 1)) as ->.
        { subst r. replace (- 2 ^ (w - 1)) with (2 ^ (w - 1) + (-1) * 2 ^ w) by lia. rewrite Z.mod_add by lia. apply Z.mod_small. lia. }
        subst r. rewrite Z.sub_opp_r. reflexivity.
      * f_equal. repeat match goal with |- context [?a <? ?b] => destruct (Z.ltb_spec a b) end; lia.
Qed.
