(** Consequences of the complete descriptions in BitCopyProofs.v, in the form used by Props_BitCopy.v. *)
From Coq Require Import ZArith Bool List Lia.
From Verif Require Import Outcome CanFrameModel CanFrameProofs BitCopyModel BitCopySpec BitCopyProofs.
Import ListNotations.
Open Scope Z_scope.

Lemma bv_pos : forall off len, 1 <= bytes_visited off len.
Proof. intros. unfold bytes_visited. lia. Qed.

Lemma copies_none : forall sw s d off len, s = None \/ d = None \/ len = 0 ->
  copyBitsUnalignedToAligned sw s off d len = Ret (d, 0) /\ copyBitsAlignedToUnaligned sw s d off len = Ret (d, 0).
Proof. intros sw [s|] [d|] off len H; split; try reflexivity; destruct H as [H|[H|H]]; try discriminate; subst; reflexivity. Qed.

(** Both functions are defined exactly when the visited bytes exist in both arrays. *)
Lemma u2a_defined : forall sw s d off len,
  3 <= sw -> byte_array sw s -> byte_array sw d -> 0 <= off < 2 ^ sw -> 0 < len < 2 ^ sw ->
  (exists d' r, copyBitsUnalignedToAligned sw (Some s) off (Some d) len = Ret (Some d', r)) <->
  (off / 8 + bytes_visited off len <= Z.of_nat (length s) /\ off / 8 + bytes_visited off len <= Z.of_nat (length d)).
Proof.
  intros sw s d off len Hsw [Hs Hsl] [Hd Hdl] Ho Hl. split.
  - intros [d' [r E]]. split; apply Z.le_ngt; intros C; rewrite u2a_ub in E by (auto; lia); discriminate.
  - intros [B1 B2]. destruct (u2a_ok sw s d off len) as [d' [E _]]; auto; try lia. eauto.
Qed.

Lemma a2u_defined : forall sw s d off len,
  3 <= sw -> byte_array sw s -> byte_array sw d -> 0 <= off < 2 ^ sw -> 0 < len < 2 ^ sw ->
  (exists d' r, copyBitsAlignedToUnaligned sw (Some s) (Some d) off len = Ret (Some d', r)) <->
  (off / 8 + bytes_visited off len <= Z.of_nat (length s) /\ off / 8 + bytes_visited off len <= Z.of_nat (length d)).
Proof.
  intros sw s d off len Hsw [Hs Hsl] [Hd Hdl] Ho Hl. split.
  - intros [d' [r E]]. split; apply Z.le_ngt; intros C; rewrite a2u_ub in E by (auto; lia); discriminate.
  - intros [B1 B2]. destruct (a2u_ok sw s d off len) as [d' [E _]]; auto; try lia. eauto.
Qed.

Lemma u2a_inv : forall sw s d off len d' r,
  3 <= sw -> byte_array sw s -> byte_array sw d -> 0 <= off < 2 ^ sw -> 0 < len < 2 ^ sw ->
  copyBitsUnalignedToAligned sw (Some s) off (Some d) len = Ret (Some d', r) ->
  r = ret_value off len /\ length d' = length d /\ byte_array sw d'.
Proof.
  intros sw s d off len d' r Hsw Bs Bd Ho Hl E.
  assert (B := proj1 (u2a_defined sw s d off len Hsw Bs Bd Ho Hl) (ex_intro _ d' (ex_intro _ r E))).
  destruct Bs as [Hs Hsl], Bd as [Hd Hdl].
  destruct (u2a_ok sw s d off len) as [d2 [E2 [Hln Hn]]]; auto; try lia.
  rewrite E in E2. injection E2 as <- ->. repeat split; auto.
  - intros. rewrite Hn. destruct (_ =? _)%nat; [apply u2a_byte_range; auto|].
    destruct (_ && _); [apply u2a_byte_range|apply Hd]. unfold u8. apply Z.mod_pos_bound. lia.
  - intros. rewrite Hn. destruct (_ =? _)%nat; [apply u2a_byte_range; auto|].
    destruct (_ && _); [apply u2a_byte_range|apply Hd]. unfold u8. apply Z.mod_pos_bound. lia.
  - lia.
Qed.

Lemma lor_byte : forall a b, 0 <= a < 256 -> 0 <= b < 256 -> 0 <= Z.lor a b < 256.
Proof.
  intros a b Ha Hb. assert (H : u8 (Z.lor a b) = Z.lor a b).
  { apply Z.bits_inj'. intros k Hk. rewrite testbit_u8 by lia. destruct (Z.ltb_spec k 8); [reflexivity|].
    rewrite Z.lor_spec, !testbit_byte_high by lia. reflexivity. }
  rewrite <- H. apply Z.mod_pos_bound. lia.
Qed.

Lemma a2u_inv : forall sw s d off len d' r,
  3 <= sw -> byte_array sw s -> byte_array sw d -> 0 <= off < 2 ^ sw -> 0 < len < 2 ^ sw ->
  copyBitsAlignedToUnaligned sw (Some s) (Some d) off len = Ret (Some d', r) ->
  r = ret_value off len /\ length d' = length d /\ byte_array sw d'.
Proof.
  intros sw s d off len d' r Hsw Bs Bd Ho Hl E.
  assert (B := proj1 (a2u_defined sw s d off len Hsw Bs Bd Ho Hl) (ex_intro _ d' (ex_intro _ r E))).
  destruct Bs as [Hs Hsl], Bd as [Hd Hdl].
  destruct (a2u_ok sw s d off len) as [d2 [E2 [Hln Hn]]]; auto; try lia.
  rewrite E in E2. injection E2 as <- ->. split; [reflexivity|]. split; [exact Hln|]. split; [|lia].
  intros i. rewrite Hn. destruct (_ && _).
  - apply lor_byte; [apply a2u_byte_range; auto|]. unfold u8. apply Z.mod_pos_bound. lia.
  - destruct (_ =? _)%nat; [apply a2u_byte_range; auto|apply Hd].
Qed.

(** Splitting a bit index. *)
Lemma split_bit : forall k, 0 <= k -> exists j i, k = 8 * j + i /\ 0 <= j /\ 0 <= i < 8.
Proof.
  intros k Hk. exists (k / 8), (k mod 8). pose proof (Z.div_mod k 8 ltac:(lia)).
  pose proof (Z.mod_pos_bound k 8 ltac:(lia)). assert (0 <= k / 8) by (apply Z.div_pos; lia). lia.
Qed.

Lemma off_split : forall off, 0 <= off -> off = 8 * (off / 8) + off mod 8 /\ 0 <= off / 8 /\ 0 <= off mod 8 < 8.
Proof.
  intros off Ho. pose proof (Z.div_mod off 8 ltac:(lia)). pose proof (Z.mod_pos_bound off 8 ltac:(lia)).
  assert (0 <= off / 8) by (apply Z.div_pos; lia). lia.
Qed.

Ltac zb :=
  repeat match goal with
  | |- context [?x <=? ?y] => destruct (Z.leb_spec x y); try lia
  | |- context [?x <? ?y] => destruct (Z.ltb_spec x y); try lia
  | |- context [?x =? ?y] => destruct (Z.eqb_spec x y); try lia
  end; cbn [andb].

Lemma repeat_byte_array : forall sw v n, 0 <= v < 256 -> 8 * Z.of_nat n < 2 ^ sw -> byte_array sw (repeat v n).
Proof.
  intros sw v n Hv Hn. split; [|now rewrite repeat_length].
  intros i. destruct (le_lt_dec n i).
  - rewrite nth_overflow by (rewrite repeat_length; lia). lia.
  - rewrite nth_indep with (d' := v) by (rewrite repeat_length; lia). now rewrite nth_repeat.
Qed.

Lemma bit_at_repeat : forall v n j k, 0 <= j < Z.of_nat n -> 0 <= k < 8 -> bit_at (repeat v n) (8 * j + k) = Z.testbit v k.
Proof.
  intros v n j k Hj Hk. rewrite bit_at_split by lia.
  rewrite nth_indep with (d' := v) by (rewrite repeat_length; lia). now rewrite nth_repeat.
Qed.

Lemma bit_at_zeros : forall n k, bit_at (repeat 0 n) k = false.
Proof.
  intros n k. unfold bit_at. destruct (le_lt_dec n (Z.to_nat (k / 8))).
  - rewrite nth_overflow by (rewrite repeat_length; lia). apply Z.testbit_0_l.
  - rewrite nth_repeat. apply Z.testbit_0_l.
Qed.

Lemma ones_bit : forall k, 0 <= k < 8 -> Z.testbit 255 k = true.
Proof. intros k Hk. change 255 with (Z.ones 8). apply Z.ones_spec_low. lia. Qed.

(** The requested copy happens exactly for requests inside the first byte and for byte-aligned requests. *)
Lemma u2a_copies_iff : forall sw off len m,
  3 <= sw -> 0 <= off -> 0 < len -> 0 <= m -> off + len + m + 64 < 2 ^ sw ->
  (forall s d d' r, byte_array sw s -> byte_array sw d ->
     copyBitsUnalignedToAligned sw (Some s) off (Some d) len = Ret (Some d', r) ->
     copies_bits s d' off (8 * (off / 8)) m) <->
  (m <= 8 - off mod 8 \/ (off mod 8 = 0 /\ m <= 8 * bytes_visited off len)).
Proof.
  intros sw off len m Hsw Ho Hl Hm Hsp.
  destruct (off_split off Ho) as [Eo [Hq Hlo]].
  pose proof (bv_pos off len) as Hbv. split.
  - intros H.
    assert (Hbl : bytes_visited off len <= (len + off) / 8 + 2).
    { unfold bytes_visited. pose proof (Z.div_mod (len - off + 7) 8 ltac:(lia)).
      pose proof (Z.mod_pos_bound (len - off + 7) 8 ltac:(lia)).
      pose proof (Z.div_mod (len + off) 8 ltac:(lia)). pose proof (Z.mod_pos_bound (len + off) 8 ltac:(lia)). lia. }
    pose proof (Z.div_mod (len + off) 8 ltac:(lia)). pose proof (Z.mod_pos_bound (len + off) 8 ltac:(lia)).
    pose proof (Z.div_mod m 8 ltac:(lia)). pose proof (Z.mod_pos_bound m 8 ltac:(lia)).
    assert (0 <= m / 8) by (apply Z.div_pos; lia).
    destruct (Z.le_gt_cases m (8 - off mod 8)) as [|Hbig]; [now left|right].
    set (n := bytes_visited off len) in *.
    assert (Hv : n <= (Z.max 1 ((len - off + 7) / 8))) by (unfold n, bytes_visited; lia).
    assert (Hroom : 8 * (off / 8 + n) <= off + len + 16).
    { pose proof (Z.div_mod (len - off + 7) 8 ltac:(lia)). pose proof (Z.mod_pos_bound (len - off + 7) 8 ltac:(lia)). lia. }
    set (N := Z.to_nat (off / 8 + n + m / 8 + 2)).
    assert (HN : 8 * Z.of_nat N < 2 ^ sw) by lia.
    pose proof (repeat_byte_array sw 0 N ltac:(lia) HN) as Bs.
    pose proof (repeat_byte_array sw 255 N ltac:(lia) HN) as Bd.
    assert (B : exists d' r, copyBitsUnalignedToAligned sw (Some (repeat 0 N)) off (Some (repeat 255 N)) len = Ret (Some d', r)).
    { apply u2a_defined; auto; try lia. rewrite !repeat_length. fold n. lia. }
    destruct B as [d' [r E]]. pose proof (H _ _ _ _ Bs Bd E) as C.
    assert (Hbits := u2a_bits sw _ _ off len d' r Hsw Bs Bd ltac:(lia) ltac:(lia) E).
    destruct (Z.eq_dec (off mod 8) 0) as [Hz|Hnz].
    + split; [exact Hz|]. apply Z.le_ngt. intros Hm2.
      specialize (C (8 * n) ltac:(lia)). rewrite bit_at_zeros in C.
      replace (8 * (off / 8) + 8 * n) with (8 * (off / 8 + n) + 0) in C by lia.
      rewrite Hbits in C by lia. fold n in C. revert C. zb. rewrite bit_at_repeat by lia. discriminate.
    + exfalso. specialize (C (8 - off mod 8) ltac:(lia)). rewrite bit_at_zeros in C.
      rewrite Hbits in C by lia. fold n in C. revert C. zb. rewrite bit_at_repeat by lia. rewrite ones_bit by lia. discriminate.
  - intros Hc s d d' r Bs Bd E i Hi.
    assert (Hbits := u2a_bits sw _ _ off len d' r Hsw Bs Bd ltac:(lia) ltac:(lia) E).
    destruct (split_bit i ltac:(lia)) as [j [k [-> [Hj Hk]]]].
    replace (8 * (off / 8) + (8 * j + k)) with (8 * (off / 8 + j) + k) by lia.
    rewrite Hbits by lia. zb. f_equal. lia.
Qed.

Lemma a2u_copies_iff : forall sw off len m,
  3 <= sw -> 0 <= off -> 0 < len -> 0 <= m -> off + len + m + 64 < 2 ^ sw ->
  (forall s d d' r, byte_array sw s -> byte_array sw d ->
     copyBitsAlignedToUnaligned sw (Some s) (Some d) off len = Ret (Some d', r) ->
     copies_bits s d' (8 * (off / 8)) off m) <->
  (m <= 8 - off mod 8 \/ (off mod 8 = 0 /\ m <= 8 * bytes_visited off len)).
Proof.
  intros sw off len m Hsw Ho Hl Hm Hsp.
  destruct (off_split off Ho) as [Eo [Hq Hlo]].
  pose proof (bv_pos off len) as Hbv. split.
  - intros H.
    pose proof (Z.div_mod m 8 ltac:(lia)). pose proof (Z.mod_pos_bound m 8 ltac:(lia)).
    assert (0 <= m / 8) by (apply Z.div_pos; lia).
    destruct (Z.le_gt_cases m (8 - off mod 8)) as [|Hbig]; [now left|right].
    set (n := bytes_visited off len) in *.
    assert (Hv : n <= (Z.max 1 ((len - off + 7) / 8))) by (unfold n, bytes_visited; lia).
    assert (Hroom : 8 * (off / 8 + n) <= off + len + 16).
    { pose proof (Z.div_mod (len - off + 7) 8 ltac:(lia)). pose proof (Z.mod_pos_bound (len - off + 7) 8 ltac:(lia)). lia. }
    set (N := Z.to_nat (off / 8 + n + m / 8 + 2)).
    assert (HN : 8 * Z.of_nat N < 2 ^ sw) by lia.
    pose proof (repeat_byte_array sw 0 N ltac:(lia) HN) as Bs.
    pose proof (repeat_byte_array sw 255 N ltac:(lia) HN) as Bd.
    assert (B : exists d' r, copyBitsAlignedToUnaligned sw (Some (repeat 0 N)) (Some (repeat 255 N)) off len = Ret (Some d', r)).
    { apply a2u_defined; auto; try lia. rewrite !repeat_length. fold n. lia. }
    destruct B as [d' [r E]]. pose proof (H _ _ _ _ Bs Bd E) as C.
    assert (Hbits := a2u_bits sw _ _ off len d' r Hsw Bs Bd ltac:(lia) ltac:(lia) E).
    destruct (Z.eq_dec (off mod 8) 0) as [Hz|Hnz].
    + split; [exact Hz|]. apply Z.le_ngt. intros Hm2.
      specialize (C (8 * n) ltac:(lia)). rewrite bit_at_zeros in C.
      replace (off + 8 * n) with (8 * (off / 8 + n) + 0) in C by lia.
      rewrite Hbits in C by lia. fold n in C. revert C. zb. rewrite bit_at_repeat by lia. discriminate.
    + exfalso. specialize (C (8 - off mod 8) ltac:(lia)). rewrite bit_at_zeros in C.
      replace (off + (8 - off mod 8)) with (8 * (off / 8 + 1) + 0) in C by lia.
      rewrite Hbits in C by lia. fold n in C. revert C.
      rewrite (bit_at_repeat 255) by lia. rewrite ones_bit by lia. zb; discriminate.
  - intros Hc s d d' r Bs Bd E i Hi.
    assert (Hbits := a2u_bits sw _ _ off len d' r Hsw Bs Bd ltac:(lia) ltac:(lia) E).
    destruct (split_bit i ltac:(lia)) as [j [k [-> [Hj Hk]]]].
    destruct Hc as [Hc|[Hz Hc]].
    + assert (j = 0) as -> by lia.
      replace (off + (8 * 0 + k)) with (8 * (off / 8) + (off mod 8 + k)) by lia.
      rewrite Hbits by lia. zb. f_equal. lia.
    + replace (off + (8 * j + k)) with (8 * (off / 8 + j) + k) by lia.
      rewrite Hbits by lia. zb. f_equal. lia.
Qed.

Lemma u2a_in_byte : forall sw s d off len d' r,
  3 <= sw -> byte_array sw s -> byte_array sw d -> 0 <= off < 2 ^ sw -> 0 < len < 2 ^ sw ->
  copyBitsUnalignedToAligned sw (Some s) off (Some d) len = Ret (Some d', r) ->
  (forall j k, off / 8 <= j < off / 8 + bytes_visited off len -> 0 <= k -> k + off mod 8 < 8 ->
     bit_at d' (8 * j + k) = bit_at s (8 * j + k + off mod 8)) /\
  (forall j k, off / 8 < j < off / 8 + bytes_visited off len -> 0 <= k < 8 ->
     bit_at d' (8 * j + k) = bit_at s (8 * j + (k + off mod 8) mod 8)).
Proof.
  intros sw s d off len d' r Hsw Bs Bd Ho Hl E.
  assert (Hbits := u2a_bits sw _ _ off len d' r Hsw Bs Bd Ho Hl E).
  destruct (off_split off ltac:(lia)) as [Eo [Hq Hlo]]. split.
  - intros j k Hj Hk Hk2. rewrite Hbits by lia. zb. f_equal. lia.
  - intros j k Hj Hk. rewrite Hbits by lia. zb; f_equal.
    + rewrite (Z.mod_small (k + off mod 8)) by lia. reflexivity.
    + f_equal. apply (Z.mod_unique (k + off mod 8) 8 1); lia.
Qed.

Lemma a2u_in_byte : forall sw s d off len d' r,
  3 <= sw -> byte_array sw s -> byte_array sw d -> 0 <= off < 2 ^ sw -> 0 < len < 2 ^ sw ->
  copyBitsAlignedToUnaligned sw (Some s) (Some d) off len = Ret (Some d', r) ->
  forall j k, off / 8 <= j < off / 8 + bytes_visited off len -> 0 <= k < 8 ->
    (off mod 8 <= k -> bit_at d' (8 * j + k) = bit_at s (8 * j + k - off mod 8)) /\
    (k < off mod 8 ->
       bit_at d' (8 * j + k) = true <->
       bit_at d (8 * j + k) = true \/
       (j + 1 < off / 8 + bytes_visited off len /\ bit_at s (8 * (j + 1) + k + 8 - off mod 8) = true)).
Proof.
  intros sw s d off len d' r Hsw Bs Bd Ho Hl E j k Hj Hk.
  assert (Hbits := a2u_bits sw _ _ off len d' r Hsw Bs Bd Ho Hl E).
  destruct (off_split off ltac:(lia)) as [Eo [Hq Hlo]].
  rewrite Hbits by lia. split; intros C.
  - zb. f_equal. lia.
  - replace (8 * (j + 1) + k + 8 - off mod 8) with (8 * (j + 1) + (k + (8 - off mod 8))) by lia.
    rewrite (proj2 (Z.leb_gt (off mod 8) k)) by lia.
    rewrite (proj2 (Z.leb_le (off / 8) j)), (proj2 (Z.ltb_lt j (off / 8 + bytes_visited off len))) by lia.
    cbn [andb]. rewrite orb_true_iff, andb_true_iff, Z.ltb_lt. reflexivity.
Qed.

(** Byte-level equality from bit-level equality. *)
Lemma byte_eq : forall x y, 0 <= x < 256 -> 0 <= y < 256 -> (forall k, 0 <= k < 8 -> Z.testbit x k = Z.testbit y k) -> x = y.
Proof.
  intros x y Hx Hy H. apply Z.bits_inj'. intros k Hk. destruct (Z.lt_ge_cases k 8).
  - apply H. lia.
  - rewrite !testbit_byte_high by lia. reflexivity.
Qed.

Lemma aligned_value : forall o l, 0 <= o < l -> ret_value (8 * o) (8 * l) = 8 * l - 8 * o /\
  bytes_visited (8 * o) (8 * l) = l - o /\ 8 * o / 8 = o /\ (8 * o) mod 8 = 0.
Proof.
  intros o l H. assert (8 * o / 8 = o) by (rewrite Z.mul_comm; apply Z.div_mul; lia).
  assert ((8 * o) mod 8 = 0) by (rewrite Z.mul_comm; apply Z.mod_mul; lia).
  assert (bytes_visited (8 * o) (8 * l) = l - o).
  { unfold bytes_visited. replace ((8 * l - 8 * o + 7) / 8) with (l - o) by (apply (Z.div_unique _ 8 _ 7); lia). lia. }
  repeat split; auto. unfold ret_value. rewrite H2, H1. rewrite Z.min_r by lia. lia.
Qed.

Lemma u2a_aligned : forall sw s d o l,
  3 <= sw -> byte_array sw s -> byte_array sw d -> 0 <= o < l -> l <= Z.of_nat (length s) -> l <= Z.of_nat (length d) ->
  exists d', copyBitsUnalignedToAligned sw (Some s) (8 * o) (Some d) (8 * l) = Ret (Some d', 8 * l - 8 * o) /\
    length d' = length d /\
    forall i, nth i d' 0 = if (o <=? Z.of_nat i) && (Z.of_nat i <? l) then nth i s 0 else nth i d 0.
Proof.
  intros sw s d o l Hsw Bs Bd Ho Hls Hld.
  destruct (aligned_value o l Ho) as [Hr [Hv [Hq Hm]]].
  assert (8 * l < 2 ^ sw) by (destruct Bs; lia).
  destruct (proj2 (u2a_defined sw s d (8 * o) (8 * l) Hsw Bs Bd ltac:(lia) ltac:(lia))) as [d' [r E]]; [rewrite Hq, Hv; lia|].
  destruct (u2a_inv sw s d (8 * o) (8 * l) d' r Hsw Bs Bd ltac:(lia) ltac:(lia) E) as [-> [Hln Bd']].
  exists d'. rewrite E, Hr. split; [reflexivity|]. split; [exact Hln|].
  intros i. apply byte_eq; [apply Bd'|destruct (_ && _); [apply Bs|apply Bd]|].
  intros k Hk. pose proof (u2a_bits sw s d (8 * o) (8 * l) d' _ Hsw Bs Bd ltac:(lia) ltac:(lia) E (Z.of_nat i) k ltac:(lia) Hk) as Hb.
  rewrite Hq, Hv, Hm in Hb. rewrite (bit_at_split d'), (bit_at_split d) in Hb by lia.
  rewrite !Nat2Z.id in Hb. rewrite Hb. replace (o + (l - o)) with l by lia.
  destruct ((o <=? Z.of_nat i) && (Z.of_nat i <? l)); [|reflexivity].
  rewrite (proj2 (Z.ltb_lt (k + 0) 8)) by lia. rewrite bit_at_split by lia. rewrite Nat2Z.id. f_equal. lia.
Qed.

Lemma a2u_aligned : forall sw s d o l,
  3 <= sw -> byte_array sw s -> byte_array sw d -> 0 <= o < l -> l <= Z.of_nat (length s) -> l <= Z.of_nat (length d) ->
  exists d', copyBitsAlignedToUnaligned sw (Some s) (Some d) (8 * o) (8 * l) = Ret (Some d', 8 * l - 8 * o) /\
    length d' = length d /\
    forall i, nth i d' 0 = if (o <=? Z.of_nat i) && (Z.of_nat i <? l) then nth i s 0 else nth i d 0.
Proof.
  intros sw s d o l Hsw Bs Bd Ho Hls Hld.
  destruct (aligned_value o l Ho) as [Hr [Hv [Hq Hm]]].
  assert (8 * l < 2 ^ sw) by (destruct Bs; lia).
  destruct (proj2 (a2u_defined sw s d (8 * o) (8 * l) Hsw Bs Bd ltac:(lia) ltac:(lia))) as [d' [r E]]; [rewrite Hq, Hv; lia|].
  destruct (a2u_inv sw s d (8 * o) (8 * l) d' r Hsw Bs Bd ltac:(lia) ltac:(lia) E) as [-> [Hln Bd']].
  exists d'. rewrite E, Hr. split; [reflexivity|]. split; [exact Hln|].
  intros i. apply byte_eq; [apply Bd'|destruct (_ && _); [apply Bs|apply Bd]|].
  intros k Hk. pose proof (a2u_bits sw s d (8 * o) (8 * l) d' _ Hsw Bs Bd ltac:(lia) ltac:(lia) E (Z.of_nat i) k ltac:(lia) Hk) as Hb.
  rewrite Hq, Hv, Hm in Hb. rewrite (bit_at_split d'), (bit_at_split d) in Hb by lia.
  rewrite !Nat2Z.id in Hb. rewrite Hb. replace (o + (l - o)) with l by lia.
  destruct ((o <=? Z.of_nat i) && (Z.of_nat i <? l)); [|reflexivity].
  rewrite (proj2 (Z.leb_le 0 k)) by lia. rewrite bit_at_split by lia. rewrite Nat2Z.id. f_equal. lia.
Qed.

(** Bits that are certainly kept. *)
Lemma u2a_keeps : forall sw s d off len d' r,
  3 <= sw -> byte_array sw s -> byte_array sw d -> 0 <= off < 2 ^ sw -> 0 < len < 2 ^ sw ->
  copyBitsUnalignedToAligned sw (Some s) off (Some d) len = Ret (Some d', r) ->
  length d' = length d /\
  forall k, 0 <= k ->
    k < 8 * (off / 8) \/ 8 * (off / 8 + bytes_visited off len) <= k \/
      8 * (off / 8) + (8 - off mod 8) <= k < 8 * (off / 8 + 1) ->
    bit_at d' k = bit_at d k.
Proof.
  intros sw s d off len d' r Hsw Bs Bd Ho Hl E.
  destruct (u2a_inv sw s d off len d' r Hsw Bs Bd Ho Hl E) as [_ [Hln _]]. split; [exact Hln|].
  intros k Hk Hc. destruct (split_bit k Hk) as [j [i [-> [Hj Hi]]]].
  destruct (off_split off ltac:(lia)) as [Eo [Hq Hlo]].
  rewrite (u2a_bits sw _ _ off len d' r Hsw Bs Bd Ho Hl E) by lia. zb; try reflexivity.
Qed.

Lemma a2u_keeps : forall sw s d off len d' r,
  3 <= sw -> byte_array sw s -> byte_array sw d -> 0 <= off < 2 ^ sw -> 0 < len < 2 ^ sw ->
  copyBitsAlignedToUnaligned sw (Some s) (Some d) off len = Ret (Some d', r) ->
  length d' = length d /\
  forall k, 0 <= k ->
    k < 8 * (off / 8) \/ 8 * (off / 8 + bytes_visited off len) <= k \/
      8 * (off / 8 + bytes_visited off len - 1) <= k < 8 * (off / 8 + bytes_visited off len - 1) + off mod 8 ->
    bit_at d' k = bit_at d k.
Proof.
  intros sw s d off len d' r Hsw Bs Bd Ho Hl E.
  destruct (a2u_inv sw s d off len d' r Hsw Bs Bd Ho Hl E) as [_ [Hln _]]. split; [exact Hln|].
  intros k Hk Hc. destruct (split_bit k Hk) as [j [i [-> [Hj Hi]]]].
  destruct (off_split off ltac:(lia)) as [Eo [Hq Hlo]].
  pose proof (bv_pos off len).
  rewrite (a2u_bits sw _ _ off len d' r Hsw Bs Bd Ho Hl E) by lia. zb; try reflexivity.
  apply orb_false_r.
Qed.

(** ... and no other bit is: ones are copied over zeros. *)
Lemma room_visited : forall off len, 0 <= off -> 0 < len -> 8 * (off / 8 + bytes_visited off len) <= off + len + 16.
Proof.
  intros off len Ho Hl. destruct (off_split off Ho) as [Eo [Hq Hlo]]. unfold bytes_visited.
  pose proof (Z.div_mod (len - off + 7) 8 ltac:(lia)). pose proof (Z.mod_pos_bound (len - off + 7) 8 ltac:(lia)). lia.
Qed.

Lemma u2a_keeps_iff : forall sw off len k, 3 <= sw -> 0 <= off -> 0 < len -> 0 <= k -> off + len + 64 < 2 ^ sw ->
  (forall s d d' r, byte_array sw s -> byte_array sw d ->
     copyBitsUnalignedToAligned sw (Some s) off (Some d) len = Ret (Some d', r) -> bit_at d' k = bit_at d k) <->
  (k < 8 * (off / 8) \/ 8 * (off / 8 + bytes_visited off len) <= k \/
     8 * (off / 8) + (8 - off mod 8) <= k < 8 * (off / 8 + 1)).
Proof.
  intros sw off len k Hsw Ho Hl Hk Hsp. destruct (off_split off Ho) as [Eo [Hq Hlo]].
  pose proof (bv_pos off len) as Hbv. pose proof (room_visited off len Ho Hl) as Hroom. split.
  - intros H. destruct (split_bit k Hk) as [j [i [-> [Hj Hi]]]].
    destruct (Z.lt_ge_cases (8 * j + i) (8 * (off / 8))) as [|G1]; [now left|right].
    destruct (Z.le_gt_cases (8 * (off / 8 + bytes_visited off len)) (8 * j + i)) as [|G2]; [now left|right].
    destruct (Z.lt_ge_cases (8 * j + i) (8 * (off / 8) + (8 - off mod 8))) as [G3|G3];
      [|destruct (Z.lt_ge_cases (8 * j + i) (8 * (off / 8 + 1))) as [|G4]; [lia|]];
      exfalso; set (N := Z.to_nat (off / 8 + bytes_visited off len));
      (assert (HN : 8 * Z.of_nat N < 2 ^ sw) by lia);
      pose proof (repeat_byte_array sw 255 N ltac:(lia) HN) as Bs;
      pose proof (repeat_byte_array sw 0 N ltac:(lia) HN) as Bd;
      (assert (B : exists d' r, copyBitsUnalignedToAligned sw (Some (repeat 255 N)) off (Some (repeat 0 N)) len = Ret (Some d', r)) by
        (apply u2a_defined; auto; try lia; rewrite !repeat_length; lia));
      destruct B as [d' [r E]]; pose proof (H _ _ _ _ Bs Bd E) as C; rewrite bit_at_zeros in C;
      rewrite (u2a_bits sw _ _ off len d' r Hsw Bs Bd ltac:(lia) ltac:(lia) E) in C by lia; revert C; zb;
      rewrite bit_at_repeat by lia; rewrite ones_bit by lia; discriminate.
  - intros Hc s d d' r Bs Bd E. exact (proj2 (u2a_keeps sw s d off len d' r Hsw Bs Bd ltac:(lia) ltac:(lia) E) k Hk Hc).
Qed.

Lemma a2u_keeps_iff : forall sw off len k, 3 <= sw -> 0 <= off -> 0 < len -> 0 <= k -> off + len + 64 < 2 ^ sw ->
  (forall s d d' r, byte_array sw s -> byte_array sw d ->
     copyBitsAlignedToUnaligned sw (Some s) (Some d) off len = Ret (Some d', r) -> bit_at d' k = bit_at d k) <->
  (k < 8 * (off / 8) \/ 8 * (off / 8 + bytes_visited off len) <= k \/
     8 * (off / 8 + bytes_visited off len - 1) <= k < 8 * (off / 8 + bytes_visited off len - 1) + off mod 8).
Proof.
  intros sw off len k Hsw Ho Hl Hk Hsp. destruct (off_split off Ho) as [Eo [Hq Hlo]].
  pose proof (bv_pos off len) as Hbv. pose proof (room_visited off len Ho Hl) as Hroom. split.
  - intros H. destruct (split_bit k Hk) as [j [i [-> [Hj Hi]]]].
    destruct (Z.lt_ge_cases (8 * j + i) (8 * (off / 8))) as [|G1]; [now left|right].
    destruct (Z.le_gt_cases (8 * (off / 8 + bytes_visited off len)) (8 * j + i)) as [|G2]; [now left|right].
    destruct (Z.lt_ge_cases (8 * j + i) (8 * (off / 8 + bytes_visited off len - 1))) as [G3|G3];
      [|destruct (Z.lt_ge_cases (8 * j + i) (8 * (off / 8 + bytes_visited off len - 1) + off mod 8)) as [|G4]; [lia|]];
      exfalso; set (N := Z.to_nat (off / 8 + bytes_visited off len));
      (assert (HN : 8 * Z.of_nat N < 2 ^ sw) by lia);
      pose proof (repeat_byte_array sw 255 N ltac:(lia) HN) as Bs;
      pose proof (repeat_byte_array sw 0 N ltac:(lia) HN) as Bd;
      (assert (B : exists d' r, copyBitsAlignedToUnaligned sw (Some (repeat 255 N)) (Some (repeat 0 N)) off len = Ret (Some d', r)) by
        (apply a2u_defined; auto; try lia; rewrite !repeat_length; lia));
      destruct B as [d' [r E]]; pose proof (H _ _ _ _ Bs Bd E) as C; rewrite bit_at_zeros in C;
      rewrite (a2u_bits sw _ _ off len d' r Hsw Bs Bd ltac:(lia) ltac:(lia) E) in C by lia; revert C;
      rewrite ?bit_at_zeros; zb; rewrite ?(bit_at_repeat 255) by lia; rewrite ?ones_bit by lia; cbn; try discriminate.
  - intros Hc s d d' r Bs Bd E. exact (proj2 (a2u_keeps sw s d off len d' r Hsw Bs Bd ltac:(lia) ltac:(lia) E) k Hk Hc).
Qed.

(** The result depends only on the visited source bytes. *)
Lemma u2a_reads : forall sw s s2 d off len,
  3 <= sw -> byte_array sw s -> byte_array sw s2 -> byte_array sw d -> 0 <= off < 2 ^ sw -> 0 < len < 2 ^ sw ->
  off / 8 + bytes_visited off len <= Z.of_nat (length s) -> off / 8 + bytes_visited off len <= Z.of_nat (length s2) ->
  (forall i, off / 8 <= Z.of_nat i < off / 8 + bytes_visited off len -> nth i s 0 = nth i s2 0) ->
  copyBitsUnalignedToAligned sw (Some s) off (Some d) len = copyBitsUnalignedToAligned sw (Some s2) off (Some d) len.
Proof.
  intros sw s s2 d off len Hsw Bs Bs2 Bd Ho Hl Hs Hs2 Heq.
  destruct (Z.le_gt_cases (off / 8 + bytes_visited off len) (Z.of_nat (length d))) as [Hd|Hd].
  - destruct (u2a_ok sw s d off len) as [d1 [-> [L1 N1]]]; auto; try (destruct Bs; lia).
    destruct (u2a_ok sw s2 d off len) as [d2 [-> [L2 N2]]]; auto; try (destruct Bs2; lia).
    do 2 f_equal. f_equal. apply nth_ext with (d := 0) (d' := 0); [lia|].
    intros i _. rewrite N1, N2. unfold bv. pose proof (bv_pos off len).
    destruct (off_split off ltac:(lia)) as [Eo [Hq Hlo]].
    destruct (Nat.eqb_spec i (Z.to_nat (off / 8))); [rewrite Heq by lia; reflexivity|].
    destruct (Nat.ltb_spec (Z.to_nat (off / 8)) i), (Nat.ltb_spec i (Z.to_nat (off / 8) + Z.to_nat (bytes_visited off len)));
      cbn [andb]; try reflexivity. rewrite Heq by lia. reflexivity.
  - destruct Bs, Bs2. rewrite !u2a_ub by (auto; lia). reflexivity.
Qed.

Lemma a2u_reads : forall sw s s2 d off len,
  3 <= sw -> byte_array sw s -> byte_array sw s2 -> byte_array sw d -> 0 <= off < 2 ^ sw -> 0 < len < 2 ^ sw ->
  off / 8 + bytes_visited off len <= Z.of_nat (length s) -> off / 8 + bytes_visited off len <= Z.of_nat (length s2) ->
  (forall i, off / 8 <= Z.of_nat i < off / 8 + bytes_visited off len -> nth i s 0 = nth i s2 0) ->
  copyBitsAlignedToUnaligned sw (Some s) (Some d) off len = copyBitsAlignedToUnaligned sw (Some s2) (Some d) off len.
Proof.
  intros sw s s2 d off len Hsw Bs Bs2 Bd Ho Hl Hs Hs2 Heq.
  destruct (Z.le_gt_cases (off / 8 + bytes_visited off len) (Z.of_nat (length d))) as [Hd|Hd].
  - destruct (a2u_ok sw s d off len) as [d1 [-> [L1 N1]]]; auto; try (destruct Bs; lia).
    destruct (a2u_ok sw s2 d off len) as [d2 [-> [L2 N2]]]; auto; try (destruct Bs2; lia).
    do 2 f_equal. f_equal. apply nth_ext with (d := 0) (d' := 0); [lia|].
    intros i _. rewrite N1, N2. unfold bv. pose proof (bv_pos off len).
    destruct (off_split off ltac:(lia)) as [Eo [Hq Hlo]].
    destruct (Nat.leb_spec (Z.to_nat (off / 8)) i), (Nat.ltb_spec (S i) (Z.to_nat (off / 8) + Z.to_nat (bytes_visited off len)));
      cbn [andb]; try (destruct (Nat.eqb_spec (S i) (Z.to_nat (off / 8) + Z.to_nat (bytes_visited off len))));
      try reflexivity; rewrite ?(Heq i), ?(Heq (S i)) by lia; reflexivity.
  - destruct Bs, Bs2. rewrite !a2u_ub by (auto; lia). reflexivity.
Qed.

Lemma visited_within : forall off len, 0 <= off < len -> 8 * (off / 8 + bytes_visited off len) <= len + 7.
Proof.
  intros off len H. destruct (off_split off ltac:(lia)) as [Eo [Hq Hlo]].
  unfold bytes_visited. pose proof (Z.div_mod (len - off + 7) 8 ltac:(lia)).
  pose proof (Z.mod_pos_bound (len - off + 7) 8 ltac:(lia)). lia.
Qed.

Lemma ret_value_zero_offset : forall len, 0 < len -> ret_value 0 len = len <-> len < 8 \/ len mod 8 = 0.
Proof.
  intros len H. unfold ret_value, bytes_visited. rewrite Zmod_0_l.
  pose proof (Z.div_mod (len - 0 + 7) 8 ltac:(lia)). pose proof (Z.mod_pos_bound (len - 0 + 7) 8 ltac:(lia)).
  pose proof (Z.div_mod len 8 ltac:(lia)). pose proof (Z.mod_pos_bound len 8 ltac:(lia)).
  destruct (Z.lt_ge_cases len 8).
  - rewrite Z.min_l by lia. replace ((len - 0 + 7) / 8) with 1; [lia|]. apply (Z.div_unique _ 8 _ (len - 1)); lia.
  - rewrite Z.min_r by lia. lia.
Qed.

Lemma visited_in_bytes : forall off len, 0 <= off -> 0 < len -> (off / 8 + bytes_visited off len <= (len + 7) / 8 <-> off / 8 < (len + 7) / 8).
Proof.
  intros off len Ho Hl. destruct (off_split off ltac:(lia)) as [Eo [Hq Hlo]]. unfold bytes_visited.
  pose proof (Z.div_mod (len - off + 7) 8 ltac:(lia)). pose proof (Z.mod_pos_bound (len - off + 7) 8 ltac:(lia)).
  pose proof (Z.div_mod (len + 7) 8 ltac:(lia)). pose proof (Z.mod_pos_bound (len + 7) 8 ltac:(lia)). lia.
Qed.

Lemma enough_iff : forall sw off len, 3 <= sw -> 0 <= off < 2 ^ sw -> 0 < len -> len + 8 < 2 ^ sw ->
  ((forall s d, byte_array sw s -> byte_array sw d -> len <= 8 * Z.of_nat (length s) -> len <= 8 * Z.of_nat (length d) ->
      (exists d' r, copyBitsUnalignedToAligned sw (Some s) off (Some d) len = Ret (Some d', r)) /\
      (exists d' r, copyBitsAlignedToUnaligned sw (Some s) (Some d) off len = Ret (Some d', r))) <->
   off / 8 < (len + 7) / 8) /\
  ((len + 7) / 8 <= off / 8 -> exists s d,
     byte_array sw s /\ byte_array sw d /\ len <= 8 * Z.of_nat (length s) /\ len <= 8 * Z.of_nat (length d) /\
     copyBitsUnalignedToAligned sw (Some s) off (Some d) len = UB /\ copyBitsAlignedToUnaligned sw (Some s) (Some d) off len = UB).
Proof.
  intros sw off len Hsw Ho Hl Hl2. pose proof (visited_in_bytes off len ltac:(lia) Hl) as V.
  pose proof (Z.div_mod (len + 7) 8 ltac:(lia)). pose proof (Z.mod_pos_bound (len + 7) 8 ltac:(lia)).
  set (a := repeat 0 (Z.to_nat ((len + 7) / 8))).
  assert (LA : Z.of_nat (length a) = (len + 7) / 8) by (unfold a; rewrite repeat_length, Z2Nat.id; lia).
  assert (BA : byte_array sw a).
  { split; [|lia]. intros i. unfold a. destruct (Nat.lt_ge_cases i (Z.to_nat ((len + 7) / 8))).
    - rewrite nth_repeat. lia.
    - rewrite nth_overflow by (rewrite repeat_length; lia). lia. }
  assert (FAR : (len + 7) / 8 <= off / 8 ->
    copyBitsUnalignedToAligned sw (Some a) off (Some a) len = UB /\ copyBitsAlignedToUnaligned sw (Some a) (Some a) off len = UB).
  { intros F. pose proof (bv_pos off len). destruct BA. split; [apply u2a_ub|apply a2u_ub]; auto; lia. }
  split; [split|].
  - intros ALL. destruct (Z.lt_ge_cases (off / 8) ((len + 7) / 8)) as [L|L]; [exact L|exfalso].
    destruct (ALL a a BA BA ltac:(lia) ltac:(lia)) as [(d' & r & E) _]. destruct (FAR L) as [U _]. rewrite U in E. discriminate.
  - intros L s d Bs Bd Hs Hd. apply V in L. split; [apply u2a_defined|apply a2u_defined]; auto; lia.
  - intros L. exists a, a. destruct (FAR L). auto 10 with zarith.
Qed.
