(** C149: arithmetic on durations and times respects their order. [in_order x y]: both operations are defined and the first result is not
    greater than the second. *)
From Coq Require Import ZArith List Bool Lia.
From Verif Require Import Outcome CInt SatMathSpec SatMathModel SatMathProofs TimeModel TimeSpec TimeProofs.
Open Scope Z_scope.

Definition in_order (x y : outcome Z) : Prop := exists a b, x = Ret a /\ y = Ret b /\ a <= b.

Lemma clamp_le : forall lo hi x y, lo <= hi -> x <= y -> clamp lo hi x <= clamp lo hi y.
Proof. intros lo hi x y H L. unfold clamp. repeat bcase; lia. Qed.
Lemma signed_le : forall w, 1 <= w -> smin w <= smax w.
Proof. intros w Hw. assert (0 < 2 ^ (w - 1)) by (apply pow_pos'; lia). ranges. lia. Qed.

(** C149. Full claim for durations: for all representable a <= b and d <= e, [in_order (a + d) (b + e)] and [in_order (a - e) (b - d)].
    It fails where C01 and C02 fail, whatever the platform makes of abs(MIN): -1 - 5 is -6 but 0 - 5 is undefined or the minimum. *)
Theorem C149_durations_refuted :
  dur_sub lp64_wrapping 64 (-1) 5 = Ret (-6) /\ dur_sub lp64_wrapping 64 0 5 = Ret (smin 64) /\ dur_sub lp64 64 0 5 = UB /\
  dur_add lp64 64 (-1) (-5) = Ret (-6) /\ dur_add lp64 64 0 (-5) = UB.
Proof. repeat split; vm_compute; reflexivity. Qed.
Print Assumptions C149_durations_refuted.
Theorem C149_durations_partial : forall P w a b d e, wf_platform P -> 2 <= w ->
  sin_range w a -> sin_range w b -> sin_range w d -> sin_range w e -> a <= b -> d <= e ->
  (a <> 0 \/ 0 <= d \/ w < int_width P -> b <> 0 \/ 0 <= e \/ w < int_width P -> in_order (dur_add P w a d) (dur_add P w b e)) /\
  (a <> 0 \/ e < 0 \/ w < int_width P -> b <> 0 \/ d < 0 \/ w < int_width P -> in_order (dur_sub P w a e) (dur_sub P w b d)).
Proof.
  intros P w a b d e HP Hw Ha Hb Hd He L L'. pose proof (signed_le w ltac:(lia)) as M.
  split; intros H H'; (do 2 eexists); (split; [|split]); unfold dur_add, dur_sub;
    try (apply add_s_partial; assumption); try (apply sub_s_partial; assumption); apply clamp_le; auto; lia.
Qed.
Print Assumptions C149_durations_partial.

(** Sums commute, exactly where both orders are defined. *)
Theorem C149_sums_commute : forall P w a b, wf_platform P -> abs_of_min P w = None -> 2 <= w -> sin_range w a -> sin_range w b ->
  (dur_add P w a b = dur_add P w b a <-> ~ (int_width P <= w /\ (a = 0 /\ b < 0 \/ b = 0 /\ a < 0))).
Proof.
  intros P w a b HP HN Hw Ha Hb. unfold dur_add.
  assert (D : (int_width P <= w /\ (a = 0 /\ b < 0 \/ b = 0 /\ a < 0)) \/ ~ (int_width P <= w /\ (a = 0 /\ b < 0 \/ b = 0 /\ a < 0))) by lia.
  destruct D as [D|D].
  - split; [|tauto]. intro E. exfalso. destruct D as [D [[-> D1]|[-> D1]]].
    + rewrite (add_s_undefined P w b) in E by (auto; lia). rewrite (add_s_partial P w b 0) in E by (auto; lia). discriminate E.
    + rewrite (add_s_undefined P w a) in E by (auto; lia). rewrite (add_s_partial P w a 0) in E by (auto; lia). discriminate E.
  - split; [intros _; exact D|]. intros _. rewrite !add_s_partial by (auto; lia). do 2 f_equal. lia.
Qed.
Print Assumptions C149_sums_commute.

(** Times keep their order whatever duration is added to both, even a negative one, for which the result is wrong (C11). *)
Theorem C149_times_keep_their_order : forall P w s t d, wf_platform P -> 1 <= w ->
  uin_range w s -> uin_range w t -> sin_range w d -> s <= t ->
  in_order (time_add P w s d) (time_add P w t d) /\ in_order (time_sub P w s d) (time_sub P w t d).
Proof.
  intros P w s t d HP Hw Hs Ht Hd L. unfold time_add, time_sub. pose proof (pow_split w Hw).
  assert (0 < 2 ^ (w - 1)) by (apply pow_pos'; lia).
  destruct (Z_lt_le_dec d 0) as [N|N].
  - split.
    + rewrite !add_us_neg by auto. do 2 eexists. split; [reflexivity|]. split; [reflexivity|]. repeat bcase; lia.
    + rewrite !sub_us_neg by auto. do 2 eexists. split; [reflexivity|]. split; [reflexivity|]. repeat bcase; lia.
  - split.
    + rewrite !add_us_nonneg by (auto; ranges; lia). do 2 eexists. split; [reflexivity|]. split; [reflexivity|].
      apply clamp_le; [ranges; lia|lia].
    + rewrite !sub_us_nonneg by (auto; ranges; lia). do 2 eexists. split; [reflexivity|]. split; [reflexivity|].
      apply clamp_le; [ranges; lia|lia].
Qed.
Print Assumptions C149_times_keep_their_order.

(** Full claim for the durations added to one time: d <= e gives [in_order (t + d) (t + e)] and [in_order (t - e) (t - d)]. It fails for
    negative durations: of two, the lesser leads to the later time. *)
Theorem C149_greater_durations_refuted :
  time_add lp64 64 (umax 64) (-1000) = Ret 999 /\ time_add lp64 64 (umax 64) (-1) = Ret 0 /\
  time_sub lp64 64 0 (-1) = Ret (umax 64) /\ time_sub lp64 64 0 (-1000) = Ret (umax 64 - 999).
Proof. repeat split; vm_compute; reflexivity. Qed.
Print Assumptions C149_greater_durations_refuted.
(** Exactly: it holds if the greater is not negative, and otherwise only if both results are the same. *)
Theorem C149_greater_durations_partial : forall P w t d e, wf_platform P -> 1 <= w ->
  uin_range w t -> sin_range w d -> sin_range w e -> d <= e ->
  (in_order (time_add P w t d) (time_add P w t e) <-> 0 <= e \/ d = e \/ t <= 2 ^ w + d) /\
  (in_order (time_sub P w t e) (time_sub P w t d) <-> 0 <= e \/ d = e \/ -1 <= t + d).
Proof.
  intros P w t d e HP Hw Ht Hd He L. unfold time_add, time_sub. pose proof (pow_split w Hw).
  assert (0 < 2 ^ (w - 1)) by (apply pow_pos'; lia).
  assert (K : forall a b, in_order (Ret a) (Ret b) <-> a <= b).
  { intros a b. split; [intros (x & y & E & E' & LE); congruence|]. intro LE. now exists a, b. }
  destruct (Z_lt_le_dec d 0) as [N|N]; [destruct (Z_lt_le_dec e 0) as [N'|N']|].
  - rewrite !add_us_neg, !sub_us_neg by auto. rewrite !K. split; repeat bcase; ranges; lia.
  - rewrite (add_us_neg P w t d), (sub_us_neg P w t d), (add_us_nonneg P w t e), (sub_us_nonneg P w t e) by (auto; ranges; lia). rewrite !K.
    split; unfold uclamp, clamp; repeat bcase; ranges; lia.
  - rewrite !add_us_nonneg, !sub_us_nonneg by (auto; ranges; lia). rewrite !K.
    split; (split; [lia|]); intros _; apply clamp_le; solve [ranges; lia|lia].
Qed.
Print Assumptions C149_greater_durations_partial.
Example C149_case : in_order (time_add lp64 64 7 5) (time_add lp64 64 7 6) /\ in_order (dur_add lp64 64 (smax 64 - 1) 5) (dur_add lp64 64 (smax 64) 5)
  /\ in_order (dur_sub lp64 64 (-3) 5) (dur_sub lp64 64 4 (-5)).
Proof. split; [|split]; (do 2 eexists); (split; [vm_compute; reflexivity|]); (split; [vm_compute; reflexivity|]); vm_compute; discriminate. Qed.
