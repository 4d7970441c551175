From Coq Require Import ZArith Bool List Lia.
From Verif Require Import Outcome CanFrameModel CanFrameProofs BitCopyModel BitCopySpec.
Import ListNotations.
Open Scope Z_scope.

(** ** Accesses *)

Lemma rd_ok : forall a i, (i < length a)%nat -> rd a (Z.of_nat i) = Ret (nth i a 0).
Proof.
  intros a i H. unfold rd. destruct (Z.leb_spec 0 (Z.of_nat i)), (Z.ltb_spec (Z.of_nat i) (Z.of_nat (length a)));
    try lia. cbn [andb]. now rewrite Nat2Z.id.
Qed.

Lemma rd_ub : forall a i, (length a <= i)%nat -> rd a (Z.of_nat i) = UB.
Proof.
  intros a i H. unfold rd. destruct (Z.ltb_spec (Z.of_nat i) (Z.of_nat (length a))); [lia|].
  now rewrite andb_false_r.
Qed.

Lemma wr_ok : forall a i v, (i < length a)%nat -> wr a (Z.of_nat i) v = Ret (replace_nth i v a).
Proof.
  intros a i v H. unfold wr. destruct (Z.leb_spec 0 (Z.of_nat i)), (Z.ltb_spec (Z.of_nat i) (Z.of_nat (length a)));
    try lia. cbn [andb]. now rewrite Nat2Z.id.
Qed.

Lemma wr_ub : forall a i v, (length a <= i)%nat -> wr a (Z.of_nat i) v = UB.
Proof.
  intros a i v H. unfold wr. destruct (Z.ltb_spec (Z.of_nat i) (Z.of_nat (length a))); [lia|].
  now rewrite andb_false_r.
Qed.

Lemma replace_twice : forall A i (u v : A) l, replace_nth i v (replace_nth i u l) = replace_nth i v l.
Proof. induction i; intros u v [|h t]; simpl; auto. f_equal. auto. Qed.

Lemma nth_replace_same : forall A i (v d : A) l, (i < length l)%nat -> nth i (replace_nth i v l) d = v.
Proof. intros. rewrite replace_nth_nth by auto. now rewrite Nat.eqb_refl. Qed.

(** What one visit does to a byte. *)
Definition u2a_byte (lo d s : Z) : Z := Z.lor (Z.land d (u8 (Z.shiftl 0xFF (8 - lo)))) (u8 (Z.shiftr s lo)).
Definition a2u_byte (lo d s : Z) : Z := Z.lor (Z.land d (u8 (Z.shiftr 0xFF (8 - lo)))) (u8 (Z.shiftl s lo)).

Lemma pow_sw : forall sw, 3 <= sw -> 2 ^ sw = 8 * 2 ^ (sw - 3).
Proof. intros. change 8 with (2 ^ 3). rewrite <- Z.pow_add_r by lia. f_equal. lia. Qed.

Lemma szt_small : forall sw x, 0 <= x < 2 ^ sw -> szt sw x = x.
Proof. intros. unfold szt. apply Z.mod_small. lia. Qed.

Lemma byte_index : forall b lo, 0 <= lo < 8 -> (8 * Z.of_nat b + lo) / 8 = Z.of_nat b.
Proof. intros. symmetry. apply (Z.div_unique _ 8 _ lo); lia. Qed.

Ltac next_off b lo :=
  replace (8 * Z.of_nat b + lo + 8) with (8 * Z.of_nat (S b) + lo) by lia.

Lemma u2a_loop_ok : forall n fuel sw src lo len dst b c,
  (n < fuel)%nat -> 3 <= sw -> 0 <= lo < 8 -> 0 < len < 2 ^ sw ->
  ((0 < n)%nat -> 8 * Z.of_nat b + lo + 8 * Z.of_nat n < len) ->
  len <= 8 * Z.of_nat b + lo + 8 * Z.of_nat (S n) ->
  (b + S n <= length src)%nat -> (b + S n <= length dst)%nat -> 8 * Z.of_nat (length src) < 2 ^ sw ->
  0 <= c <= 8 * Z.of_nat b ->
  exists dst',
    u2a_loop fuel sw src lo len dst (8 * Z.of_nat b + lo) c =
      Ret (dst', c + Z.of_nat (S n) * Z.min len (8 - lo) + Z.of_nat n * lo) /\
    length dst' = length dst /\
    forall i, nth i dst' 0 =
      if (i =? b)%nat then u2a_byte lo (nth i dst 0) (nth i src 0)
      else if ((b <? i) && (i <=? b + n))%nat
           then u2a_byte lo (u8 (Z.shiftl (nth i src 0) (8 - lo))) (nth i src 0)
           else nth i dst 0.
Proof.
  induction n as [|n IH]; intros fuel sw src lo len dst b c Hf Hsw Hlo Hlen Hlow Hhigh Hs Hd Hspace Hc;
    (destruct fuel as [|fuel]; [lia|]); pose proof (pow_sw sw Hsw) as Hpow;
    cbn [u2a_loop]; rewrite byte_index by lia;
    rewrite rd_ok by lia; cbn [bind];
    rewrite wr_ok by lia; cbn [bind];
    rewrite rd_ok by lia; cbn [bind];
    rewrite rd_ok by (rewrite replace_nth_length; lia); cbn [bind];
    rewrite wr_ok by (rewrite replace_nth_length; lia); cbn [bind];
    rewrite nth_replace_same by lia; rewrite replace_twice;
    (rewrite (szt_small sw (8 * Z.of_nat b + lo + 8)) by lia);
    (rewrite (szt_small sw (c + Z.min len (8 - lo))) by lia).
  - destruct (Z.ltb_spec (8 * Z.of_nat b + lo + 8) len); [lia|].
    eexists. split; [f_equal; f_equal; lia|]. split; [apply replace_nth_length|].
    intros i. rewrite replace_nth_nth by lia. destruct (Nat.eqb_spec i b) as [->|Hne]; [reflexivity|].
    destruct (Nat.ltb_spec b i), (Nat.leb_spec i (b + 0)); try reflexivity. lia.
  - destruct (Z.ltb_spec (8 * Z.of_nat b + lo + 8) len); [|lia].
    next_off b lo. rewrite byte_index by lia.
    rewrite rd_ok by lia. cbn [bind]. rewrite wr_ok by (rewrite replace_nth_length; lia). cbn [bind].
    rewrite (szt_small sw (c + Z.min len (8 - lo) + lo)) by lia.
    set (dst1 := replace_nth (S b) _ _).
    assert (Hl1 : length dst1 = length dst) by (unfold dst1; now rewrite !replace_nth_length).
    destruct (IH fuel sw src lo len dst1 (S b) (c + Z.min len (8 - lo) + lo)) as [dst' [E [Hl Hn]]]; try lia.
    exists dst'. split; [|split].
    + rewrite E. f_equal. f_equal. lia.
    + lia.
    + intros i. rewrite Hn. unfold dst1. fold (u2a_byte lo (nth b dst 0) (nth b src 0)).
      rewrite (replace_nth_nth _ (S b)) by (rewrite replace_nth_length; lia).
      rewrite (replace_nth_nth _ b) by lia.
      destruct (Nat.eqb_spec i (S b)) as [->|].
      * destruct (Nat.eqb_spec (S b) b); [lia|].
        destruct (Nat.ltb_spec b (S b)), (Nat.leb_spec (S b) (b + S n)); try lia. reflexivity.
      * destruct (Nat.eqb_spec i b) as [->|].
        -- destruct (Nat.ltb_spec (S b) b); [lia|]. reflexivity.
        -- destruct (Nat.ltb_spec (S b) i), (Nat.leb_spec i (S b + n)), (Nat.ltb_spec b i), (Nat.leb_spec i (b + S n));
             try lia; reflexivity.
Qed.

Lemma u2a_loop_ub : forall n fuel sw src lo len dst b c,
  3 <= sw -> 0 <= lo < 8 -> 0 < len < 2 ^ sw ->
  ((0 < n)%nat -> 8 * Z.of_nat b + lo + 8 * Z.of_nat n < len) ->
  8 * Z.of_nat (length src) < 2 ^ sw ->
  (length src < b + S n \/ length dst < b + S n)%nat ->
  u2a_loop fuel sw src lo len dst (8 * Z.of_nat b + lo) c = UB.
Proof.
  induction n as [|n IH]; intros fuel sw src lo len dst b c Hsw Hlo Hlen Hlow Hspace Hub;
    (destruct fuel as [|fuel]; [reflexivity|]); pose proof (pow_sw sw Hsw) as Hpow;
    cbn [u2a_loop]; rewrite byte_index by lia.
  - destruct (le_lt_dec (length dst) b).
    + rewrite rd_ub by lia. reflexivity.
    + rewrite rd_ok by lia; cbn [bind]. rewrite wr_ok by lia; cbn [bind]. rewrite rd_ub by lia. reflexivity.
  - destruct (le_lt_dec (length dst) b).
    { rewrite rd_ub by lia. reflexivity. }
    rewrite rd_ok by lia; cbn [bind]. rewrite wr_ok by lia; cbn [bind].
    destruct (le_lt_dec (length src) b).
    { rewrite rd_ub by lia. reflexivity. }
    rewrite rd_ok by lia; cbn [bind].
    rewrite rd_ok by (rewrite replace_nth_length; lia); cbn [bind].
    rewrite wr_ok by (rewrite replace_nth_length; lia); cbn [bind].
    rewrite (szt_small sw (8 * Z.of_nat b + lo + 8)) by lia.
    destruct (Z.ltb_spec (8 * Z.of_nat b + lo + 8) len); [|lia].
    next_off b lo. rewrite byte_index by lia.
    destruct (le_lt_dec (length src) (S b)).
    { rewrite rd_ub by lia. reflexivity. }
    rewrite rd_ok by lia; cbn [bind].
    destruct (le_lt_dec (length dst) (S b)).
    { rewrite wr_ub by (rewrite !replace_nth_length; lia). reflexivity. }
    rewrite wr_ok by (rewrite !replace_nth_length; lia). cbn [bind].
    apply IH; auto; rewrite ?replace_nth_length; try lia.
Qed.

Lemma a2u_loop_ok : forall n fuel sw src lo len dst b c,
  (n < fuel)%nat -> 3 <= sw -> 0 <= lo < 8 -> 0 < len < 2 ^ sw ->
  ((0 < n)%nat -> 8 * Z.of_nat b + lo + 8 * Z.of_nat n < len) ->
  len <= 8 * Z.of_nat b + lo + 8 * Z.of_nat (S n) ->
  (b + S n <= length src)%nat -> (b + S n <= length dst)%nat -> 8 * Z.of_nat (length src) < 2 ^ sw ->
  0 <= c <= 8 * Z.of_nat b ->
  exists dst',
    a2u_loop fuel sw src lo len dst (8 * Z.of_nat b + lo) c =
      Ret (dst', c + Z.of_nat (S n) * Z.min len (8 - lo) + Z.of_nat n * lo) /\
    length dst' = length dst /\
    forall i, nth i dst' 0 =
      if ((b <=? i) && (i <? b + n))%nat
      then Z.lor (a2u_byte lo (nth i dst 0) (nth i src 0)) (u8 (Z.shiftr (nth (S i) src 0) (8 - lo)))
      else if (i =? b + n)%nat then a2u_byte lo (nth i dst 0) (nth i src 0)
           else nth i dst 0.
Proof.
  induction n as [|n IH]; intros fuel sw src lo len dst b c Hf Hsw Hlo Hlen Hlow Hhigh Hs Hd Hspace Hc;
    (destruct fuel as [|fuel]; [lia|]); pose proof (pow_sw sw Hsw) as Hpow;
    cbn [a2u_loop]; rewrite byte_index by lia;
    rewrite rd_ok by lia; cbn [bind];
    rewrite wr_ok by lia; cbn [bind];
    rewrite rd_ok by lia; cbn [bind];
    rewrite rd_ok by (rewrite replace_nth_length; lia); cbn [bind];
    rewrite wr_ok by (rewrite replace_nth_length; lia); cbn [bind];
    rewrite nth_replace_same by lia; rewrite replace_twice;
    (rewrite (szt_small sw (8 * Z.of_nat b + lo + 8)) by lia);
    (rewrite (szt_small sw (c + Z.min len (8 - lo))) by lia).
  - destruct (Z.ltb_spec (8 * Z.of_nat b + lo + 8) len); [lia|].
    eexists. split; [f_equal; f_equal; lia|]. split; [apply replace_nth_length|].
    intros i. rewrite replace_nth_nth by lia.
    destruct (Nat.leb_spec b i), (Nat.ltb_spec i (b + 0)), (Nat.eqb_spec i b), (Nat.eqb_spec i (b + 0)); try lia;
      cbn [andb]; subst; try reflexivity.
  - destruct (Z.ltb_spec (8 * Z.of_nat b + lo + 8) len); [|lia].
    next_off b lo. rewrite byte_index by lia.
    rewrite rd_ok by lia. cbn [bind].
    rewrite rd_ok by (rewrite replace_nth_length; lia). cbn [bind].
    rewrite wr_ok by (rewrite replace_nth_length; lia). cbn [bind].
    rewrite nth_replace_same by lia. rewrite replace_twice.
    rewrite (szt_small sw (c + Z.min len (8 - lo) + lo)) by lia.
    set (dst1 := replace_nth b _ _).
    assert (Hl1 : length dst1 = length dst) by (unfold dst1; now rewrite !replace_nth_length).
    destruct (IH fuel sw src lo len dst1 (S b) (c + Z.min len (8 - lo) + lo)) as [dst' [E [Hl Hn]]]; try lia.
    exists dst'. split; [|split].
    + rewrite E. f_equal. f_equal. lia.
    + lia.
    + intros i. rewrite Hn. unfold dst1. fold (a2u_byte lo (nth b dst 0) (nth b src 0)).
      rewrite (replace_nth_nth _ b) by lia.
      destruct (Nat.leb_spec (S b) i), (Nat.ltb_spec i (S b + n)), (Nat.leb_spec b i), (Nat.ltb_spec i (b + S n)),
        (Nat.eqb_spec i (S b + n)), (Nat.eqb_spec i (b + S n)), (Nat.eqb_spec i b); try lia; cbn [andb];
        subst; try reflexivity.
Qed.

Lemma a2u_loop_ub : forall n fuel sw src lo len dst b c,
  3 <= sw -> 0 <= lo < 8 -> 0 < len < 2 ^ sw ->
  ((0 < n)%nat -> 8 * Z.of_nat b + lo + 8 * Z.of_nat n < len) ->
  8 * Z.of_nat (length src) < 2 ^ sw ->
  (length src < b + S n \/ length dst < b + S n)%nat ->
  a2u_loop fuel sw src lo len dst (8 * Z.of_nat b + lo) c = UB.
Proof.
  induction n as [|n IH]; intros fuel sw src lo len dst b c Hsw Hlo Hlen Hlow Hspace Hub;
    (destruct fuel as [|fuel]; [reflexivity|]); pose proof (pow_sw sw Hsw) as Hpow;
    cbn [a2u_loop]; rewrite byte_index by lia.
  - destruct (le_lt_dec (length dst) b).
    + rewrite rd_ub by lia. reflexivity.
    + rewrite rd_ok by lia; cbn [bind]. rewrite wr_ok by lia; cbn [bind]. rewrite rd_ub by lia. reflexivity.
  - destruct (le_lt_dec (length dst) b).
    { rewrite rd_ub by lia. reflexivity. }
    rewrite rd_ok by lia; cbn [bind]. rewrite wr_ok by lia; cbn [bind].
    destruct (le_lt_dec (length src) b).
    { rewrite rd_ub by lia. reflexivity. }
    rewrite rd_ok by lia; cbn [bind].
    rewrite rd_ok by (rewrite replace_nth_length; lia); cbn [bind].
    rewrite wr_ok by (rewrite replace_nth_length; lia); cbn [bind].
    rewrite (szt_small sw (8 * Z.of_nat b + lo + 8)) by lia.
    destruct (Z.ltb_spec (8 * Z.of_nat b + lo + 8) len); [|lia].
    next_off b lo. rewrite byte_index by lia.
    destruct (le_lt_dec (length src) (S b)).
    { rewrite rd_ub by lia. reflexivity. }
    rewrite rd_ok by lia; cbn [bind].
    rewrite rd_ok by (rewrite ?replace_nth_length; lia); cbn [bind].
    rewrite wr_ok by (rewrite !replace_nth_length; lia). cbn [bind].
    apply IH; auto; rewrite ?replace_nth_length; try lia.
Qed.

(** ** The functions: definedness, return value, byte-level effect *)

Definition bv (off len : Z) : nat := Z.to_nat (bytes_visited off len).

Lemma visited_split : forall off len, 0 <= off -> 0 < len ->
  let b := Z.to_nat (off / 8) in
  let lo := off mod 8 in
  exists n, bv off len = S n /\ Z.of_nat (S n) = bytes_visited off len /\
    off = 8 * Z.of_nat b + lo /\ 0 <= lo < 8 /\
    ((0 < n)%nat -> off + 8 * Z.of_nat n < len) /\ len <= off + 8 * Z.of_nat (S n).
Proof.
  intros off len Ho Hl b lo.
  assert (1 <= bytes_visited off len) as Hv by (unfold bytes_visited; lia).
  exists (Z.to_nat (bytes_visited off len - 1)).
  assert (Hs : Z.of_nat (S (Z.to_nat (bytes_visited off len - 1))) = bytes_visited off len) by lia.
  split; [unfold bv; lia|]. split; [exact Hs|].
  pose proof (Z.div_mod off 8 ltac:(lia)). pose proof (Z.mod_pos_bound off 8 ltac:(lia)).
  assert (0 <= off / 8) by (apply Z.div_pos; lia).
  split; [unfold b, lo; lia|]. split; [unfold lo; lia|].
  pose proof (Z.div_mod (len - off + 7) 8 ltac:(lia)). pose proof (Z.mod_pos_bound (len - off + 7) 8 ltac:(lia)).
  unfold bytes_visited in *. lia.
Qed.

Definition ret_value (off len : Z) : Z :=
  bytes_visited off len * Z.min len (8 - off mod 8) + (bytes_visited off len - 1) * (off mod 8).

Lemma u2a_ok : forall sw s d off len,
  3 <= sw -> 8 * Z.of_nat (length s) < 2 ^ sw -> 0 <= off < 2 ^ sw -> 0 < len < 2 ^ sw ->
  off / 8 + bytes_visited off len <= Z.of_nat (length s) ->
  off / 8 + bytes_visited off len <= Z.of_nat (length d) ->
  exists d', copyBitsUnalignedToAligned sw (Some s) off (Some d) len = Ret (Some d', ret_value off len) /\
    length d' = length d /\
    forall i, nth i d' 0 =
      if (i =? Z.to_nat (off / 8))%nat then u2a_byte (off mod 8) (nth i d 0) (nth i s 0)
      else if ((Z.to_nat (off / 8) <? i) && (i <? Z.to_nat (off / 8) + bv off len))%nat
           then u2a_byte (off mod 8) (u8 (Z.shiftl (nth i s 0) (8 - off mod 8))) (nth i s 0)
           else nth i d 0.
Proof.
  intros sw s d off len Hsw Hsp Ho Hl Hs Hd.
  destruct (visited_split off len ltac:(lia) ltac:(lia)) as [n [Hn [Hz [Ho' [Hlo [H1 H2]]]]]].
  assert (0 <= off / 8) by (apply Z.div_pos; lia).
  destruct (u2a_loop_ok n (S (length s)) sw s (off mod 8) len d (Z.to_nat (off / 8)) 0) as [d' [E [Hld Hnd]]]; try lia.
  exists d'. split; [|split; [exact Hld|]].
  - unfold copyBitsUnalignedToAligned. destruct (Z.eqb_spec len 0); [lia|].
    rewrite <- Ho' in E. rewrite E. cbn [bind fst snd]. unfold ret_value. rewrite <- Hz.
    f_equal. f_equal. lia.
  - intros i. rewrite Hnd, Hn.
    destruct (Nat.eqb_spec i (Z.to_nat (off / 8))); [reflexivity|].
    destruct (Nat.ltb_spec (Z.to_nat (off / 8)) i), (Nat.leb_spec i (Z.to_nat (off / 8) + n)),
      (Nat.ltb_spec i (Z.to_nat (off / 8) + S n)); try lia; reflexivity.
Qed.

Lemma u2a_ub : forall sw s d off len,
  3 <= sw -> 8 * Z.of_nat (length s) < 2 ^ sw -> 0 <= off < 2 ^ sw -> 0 < len < 2 ^ sw ->
  Z.of_nat (length s) < off / 8 + bytes_visited off len \/ Z.of_nat (length d) < off / 8 + bytes_visited off len ->
  copyBitsUnalignedToAligned sw (Some s) off (Some d) len = UB.
Proof.
  intros sw s d off len Hsw Hsp Ho Hl Hub.
  destruct (visited_split off len ltac:(lia) ltac:(lia)) as [n [Hn [Hz [Ho' [Hlo [H1 H2]]]]]].
  assert (0 <= off / 8) by (apply Z.div_pos; lia).
  unfold copyBitsUnalignedToAligned. destruct (Z.eqb_spec len 0); [lia|].
  rewrite Ho' at 2. rewrite (u2a_loop_ub n) by (auto; lia). reflexivity.
Qed.

Lemma a2u_ok : forall sw s d off len,
  3 <= sw -> 8 * Z.of_nat (length s) < 2 ^ sw -> 0 <= off < 2 ^ sw -> 0 < len < 2 ^ sw ->
  off / 8 + bytes_visited off len <= Z.of_nat (length s) ->
  off / 8 + bytes_visited off len <= Z.of_nat (length d) ->
  exists d', copyBitsAlignedToUnaligned sw (Some s) (Some d) off len = Ret (Some d', ret_value off len) /\
    length d' = length d /\
    forall i, nth i d' 0 =
      if ((Z.to_nat (off / 8) <=? i) && (S i <? Z.to_nat (off / 8) + bv off len))%nat
      then Z.lor (a2u_byte (off mod 8) (nth i d 0) (nth i s 0)) (u8 (Z.shiftr (nth (S i) s 0) (8 - off mod 8)))
      else if (S i =? Z.to_nat (off / 8) + bv off len)%nat then a2u_byte (off mod 8) (nth i d 0) (nth i s 0)
           else nth i d 0.
Proof.
  intros sw s d off len Hsw Hsp Ho Hl Hs Hd.
  destruct (visited_split off len ltac:(lia) ltac:(lia)) as [n [Hn [Hz [Ho' [Hlo [H1 H2]]]]]].
  assert (0 <= off / 8) by (apply Z.div_pos; lia).
  destruct (a2u_loop_ok n (S (length s)) sw s (off mod 8) len d (Z.to_nat (off / 8)) 0) as [d' [E [Hld Hnd]]]; try lia.
  exists d'. split; [|split; [exact Hld|]].
  - unfold copyBitsAlignedToUnaligned. destruct (Z.eqb_spec len 0); [lia|].
    rewrite <- Ho' in E. rewrite E. cbn [bind fst snd]. unfold ret_value. rewrite <- Hz.
    f_equal. f_equal. lia.
  - intros i. rewrite Hnd, Hn.
    destruct (Nat.leb_spec (Z.to_nat (off / 8)) i), (Nat.ltb_spec i (Z.to_nat (off / 8) + n)),
      (Nat.ltb_spec (S i) (Z.to_nat (off / 8) + S n)), (Nat.eqb_spec i (Z.to_nat (off / 8) + n)),
      (Nat.eqb_spec (S i) (Z.to_nat (off / 8) + S n)); try lia; reflexivity.
Qed.

Lemma a2u_ub : forall sw s d off len,
  3 <= sw -> 8 * Z.of_nat (length s) < 2 ^ sw -> 0 <= off < 2 ^ sw -> 0 < len < 2 ^ sw ->
  Z.of_nat (length s) < off / 8 + bytes_visited off len \/ Z.of_nat (length d) < off / 8 + bytes_visited off len ->
  copyBitsAlignedToUnaligned sw (Some s) (Some d) off len = UB.
Proof.
  intros sw s d off len Hsw Hsp Ho Hl Hub.
  destruct (visited_split off len ltac:(lia) ltac:(lia)) as [n [Hn [Hz [Ho' [Hlo [H1 H2]]]]]].
  assert (0 <= off / 8) by (apply Z.div_pos; lia).
  unfold copyBitsAlignedToUnaligned. destruct (Z.eqb_spec len 0); [lia|].
  rewrite Ho' at 2. rewrite (a2u_loop_ub n) by (auto; lia). reflexivity.
Qed.

(** ** Bits of a byte *)

Lemma testbit_u8 : forall x k, 0 <= k -> Z.testbit (u8 x) k = (k <? 8) && Z.testbit x k.
Proof.
  intros x k Hk. unfold u8. change 256 with (2 ^ 8). destruct (Z.ltb_spec k 8).
  - now rewrite Z.mod_pow2_bits_low by lia.
  - now rewrite Z.mod_pow2_bits_high by lia.
Qed.

Lemma testbit_ff : forall k, 0 <= k -> Z.testbit 0xFF k = (k <? 8).
Proof.
  intros k Hk. change 0xFF with (Z.ones 8). destruct (Z.ltb_spec k 8).
  - apply Z.ones_spec_low. lia.
  - apply Z.ones_spec_high. lia.
Qed.

Lemma testbit_byte_high : forall s k, 0 <= s < 256 -> 8 <= k -> Z.testbit s k = false.
Proof.
  intros s k Hs Hk. rewrite <- (Z.mod_small s (2 ^ 8)) by (change (2 ^ 8) with 256; lia).
  apply Z.mod_pow2_bits_high. lia.
Qed.

Lemma u2a_byte_bit : forall lo d s k, 0 <= lo < 8 -> 0 <= s < 256 -> 0 <= k < 8 ->
  Z.testbit (u2a_byte lo d s) k = if k <? 8 - lo then Z.testbit s (k + lo) else Z.testbit d k.
Proof.
  intros lo d s k Hlo Hs Hk. unfold u2a_byte. rewrite Z.lor_spec, Z.land_spec, !testbit_u8 by lia.
  rewrite Z.shiftl_spec, Z.shiftr_spec by lia.
  destruct (Z.ltb_spec k 8); [|lia]. cbn [andb].
  destruct (Z.ltb_spec k (8 - lo)).
  - rewrite (Z.testbit_neg_r 0xFF) by lia. rewrite andb_false_r. reflexivity.
  - rewrite testbit_ff by lia. destruct (Z.ltb_spec (k - (8 - lo)) 8); [|lia].
    rewrite (testbit_byte_high s) by lia. now rewrite andb_true_r, orb_false_r.
Qed.

Lemma a2u_byte_bit : forall lo d s k, 0 <= lo < 8 -> 0 <= k < 8 ->
  Z.testbit (a2u_byte lo d s) k = if k <? lo then Z.testbit d k else Z.testbit s (k - lo).
Proof.
  intros lo d s k Hlo Hk. unfold a2u_byte. rewrite Z.lor_spec, Z.land_spec, !testbit_u8 by lia.
  rewrite Z.shiftl_spec, Z.shiftr_spec by lia.
  destruct (Z.ltb_spec k 8); [|lia]. cbn [andb].
  rewrite testbit_ff by lia.
  destruct (Z.ltb_spec k lo).
  - destruct (Z.ltb_spec (k + (8 - lo)) 8); [|lia].
    rewrite (Z.testbit_neg_r s) by lia. now rewrite andb_true_r, orb_false_r.
  - destruct (Z.ltb_spec (k + (8 - lo)) 8); [lia|]. now rewrite andb_false_r.
Qed.

Lemma u2a_byte_range : forall lo d s, 0 <= d < 256 -> 0 <= u2a_byte lo d s < 256.
Proof.
  intros lo d s Hd. unfold u2a_byte.
  assert (H : u8 (Z.lor (Z.land d (u8 (Z.shiftl 0xFF (8 - lo)))) (u8 (Z.shiftr s lo))) =
              Z.lor (Z.land d (u8 (Z.shiftl 0xFF (8 - lo)))) (u8 (Z.shiftr s lo))).
  { apply Z.bits_inj'. intros k Hk. rewrite testbit_u8 by lia. rewrite Z.lor_spec, Z.land_spec, !testbit_u8 by lia.
    destruct (k <? 8); [reflexivity|]. simpl. now rewrite andb_false_r. }
  rewrite <- H. apply Z.mod_pos_bound. lia.
Qed.

Lemma a2u_byte_range : forall lo d s, 0 <= d < 256 -> 0 <= a2u_byte lo d s < 256.
Proof.
  intros lo d s Hd. unfold a2u_byte.
  assert (H : u8 (Z.lor (Z.land d (u8 (Z.shiftr 0xFF (8 - lo)))) (u8 (Z.shiftl s lo))) =
              Z.lor (Z.land d (u8 (Z.shiftr 0xFF (8 - lo)))) (u8 (Z.shiftl s lo))).
  { apply Z.bits_inj'. intros k Hk. rewrite testbit_u8 by lia. rewrite Z.lor_spec, Z.land_spec, !testbit_u8 by lia.
    destruct (k <? 8); [reflexivity|]. simpl. now rewrite andb_false_r. }
  rewrite <- H. apply Z.mod_pos_bound. lia.
Qed.

(** Byte [j], bit [k] of a byte array. *)
Lemma bit_at_split : forall a j k, 0 <= j -> 0 <= k < 8 -> bit_at a (8 * j + k) = Z.testbit (nth (Z.to_nat j) a 0) k.
Proof.
  intros a j k Hj Hk. unfold bit_at.
  assert ((8 * j + k) / 8 = j) as -> by (symmetry; apply (Z.div_unique _ 8 _ k); lia).
  assert ((8 * j + k) mod 8 = k) as -> by (symmetry; apply (Z.mod_unique _ 8 j _); lia).
  reflexivity.
Qed.

(** ** Complete bit-level description *)

Lemma u2a_bits : forall sw s d off len d' r,
  3 <= sw -> byte_array sw s -> byte_array sw d -> 0 <= off < 2 ^ sw -> 0 < len < 2 ^ sw ->
  copyBitsUnalignedToAligned sw (Some s) off (Some d) len = Ret (Some d', r) ->
  forall j k, 0 <= j -> 0 <= k < 8 ->
    bit_at d' (8 * j + k) =
      if (off / 8 <=? j) && (j <? off / 8 + bytes_visited off len)
      then if k + off mod 8 <? 8 then bit_at s (8 * j + (k + off mod 8))
           else if j =? off / 8 then bit_at d (8 * j + k) else bit_at s (8 * j + (k + off mod 8 - 8))
      else bit_at d (8 * j + k).
Proof.
  intros sw s d off len d' r Hsw [Hs Hsl] [Hd Hdl] Ho Hl E j k Hj Hk.
  assert (B : off / 8 + bytes_visited off len <= Z.of_nat (length s) /\
              off / 8 + bytes_visited off len <= Z.of_nat (length d)).
  { split; apply Z.le_ngt; intros C; rewrite u2a_ub in E by (auto; lia); discriminate. }
  destruct B as [B1 B2].
  destruct (u2a_ok sw s d off len) as [d2 [E2 [_ Hn]]]; auto; try lia.
  rewrite E in E2. injection E2 as <- _.
  assert (0 <= off / 8) by (apply Z.div_pos; lia).
  pose proof (Z.mod_pos_bound off 8 ltac:(lia)).
  assert (1 <= bytes_visited off len) by (unfold bytes_visited; lia).
  rewrite !(bit_at_split _ j k) by lia. rewrite Hn. unfold bv.
  specialize (Hs (Z.to_nat j)).
  destruct (Z.leb_spec (off / 8) j), (Z.ltb_spec j (off / 8 + bytes_visited off len)),
    (Z.eqb_spec j (off / 8)), (Nat.eqb_spec (Z.to_nat j) (Z.to_nat (off / 8))),
    (Nat.ltb_spec (Z.to_nat (off / 8)) (Z.to_nat j)),
    (Nat.ltb_spec (Z.to_nat j) (Z.to_nat (off / 8) + Z.to_nat (bytes_visited off len))); try lia;
    cbn [andb]; try reflexivity.
  - rewrite u2a_byte_bit by lia.
    destruct (Z.ltb_spec k (8 - off mod 8)), (Z.ltb_spec (k + off mod 8) 8); try lia; try reflexivity.
    rewrite bit_at_split by lia. reflexivity.
  - rewrite u2a_byte_bit by lia.
    destruct (Z.ltb_spec k (8 - off mod 8)), (Z.ltb_spec (k + off mod 8) 8); try lia.
    + rewrite bit_at_split by lia. reflexivity.
    + rewrite testbit_u8, Z.shiftl_spec by lia. destruct (Z.ltb_spec k 8); [|lia]. cbn [andb].
      rewrite bit_at_split by lia. f_equal. lia.
Qed.

Lemma a2u_bits : forall sw s d off len d' r,
  3 <= sw -> byte_array sw s -> byte_array sw d -> 0 <= off < 2 ^ sw -> 0 < len < 2 ^ sw ->
  copyBitsAlignedToUnaligned sw (Some s) (Some d) off len = Ret (Some d', r) ->
  forall j k, 0 <= j -> 0 <= k < 8 ->
    bit_at d' (8 * j + k) =
      if (off / 8 <=? j) && (j <? off / 8 + bytes_visited off len)
      then if off mod 8 <=? k then bit_at s (8 * j + (k - off mod 8))
           else bit_at d (8 * j + k) ||
                ((j + 1 <? off / 8 + bytes_visited off len) && bit_at s (8 * (j + 1) + (k + (8 - off mod 8))))
      else bit_at d (8 * j + k).
Proof.
  intros sw s d off len d' r Hsw [Hs Hsl] [Hd Hdl] Ho Hl E j k Hj Hk.
  assert (B : off / 8 + bytes_visited off len <= Z.of_nat (length s) /\
              off / 8 + bytes_visited off len <= Z.of_nat (length d)).
  { split; apply Z.le_ngt; intros C; rewrite a2u_ub in E by (auto; lia); discriminate. }
  destruct B as [B1 B2].
  destruct (a2u_ok sw s d off len) as [d2 [E2 [_ Hn]]]; auto; try lia.
  rewrite E in E2. injection E2 as <- _.
  assert (0 <= off / 8) by (apply Z.div_pos; lia).
  pose proof (Z.mod_pos_bound off 8 ltac:(lia)).
  assert (1 <= bytes_visited off len) by (unfold bytes_visited; lia).
  rewrite !(bit_at_split _ j k) by lia. rewrite Hn. unfold bv.
  pose proof (Hs (Z.to_nat j)) as Hsj. pose proof (Hs (S (Z.to_nat j))) as Hsj1.
  destruct (Z.leb_spec (off / 8) j), (Z.ltb_spec j (off / 8 + bytes_visited off len)),
    (Z.ltb_spec (j + 1) (off / 8 + bytes_visited off len)),
    (Nat.leb_spec (Z.to_nat (off / 8)) (Z.to_nat j)),
    (Nat.ltb_spec (S (Z.to_nat j)) (Z.to_nat (off / 8) + Z.to_nat (bytes_visited off len))),
    (Nat.eqb_spec (S (Z.to_nat j)) (Z.to_nat (off / 8) + Z.to_nat (bytes_visited off len))); try lia;
    cbn [andb]; try reflexivity.
  - rewrite Z.lor_spec, a2u_byte_bit, testbit_u8, Z.shiftr_spec by lia.
    destruct (Z.ltb_spec k 8); [|lia]. cbn [andb].
    destruct (Z.ltb_spec k (off mod 8)), (Z.leb_spec (off mod 8) k); try lia.
    + rewrite bit_at_split by lia. replace (Z.to_nat (j + 1)) with (S (Z.to_nat j)) by lia. reflexivity.
    + rewrite bit_at_split by lia. rewrite (testbit_byte_high (nth (S (Z.to_nat j)) s 0)) by lia.
      apply orb_false_r.
  - rewrite a2u_byte_bit by lia.
    destruct (Z.ltb_spec k (off mod 8)), (Z.leb_spec (off mod 8) k); try lia.
    + now rewrite orb_false_r.
    + rewrite bit_at_split by lia. reflexivity.
Qed.
