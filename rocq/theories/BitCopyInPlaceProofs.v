(** What the bit copies of libuavcan/include/libuavcan/platform/memory.hpp, lines 307-399, leave in an array that is both
    source and destination, for every offset: lemmas for C80. *)
From Coq Require Import ZArith Bool List Lia.
From Verif Require Import Outcome CanFrameModel CanFrameProofs BitCopyModel BitCopySpec BitCopyProofs BitCopyInPlace.
Import ListNotations.
Open Scope Z_scope.

(** The byte left in place of [b] by lines 336-342. *)
Definition ip_u2a (lo b : Z) : Z :=
  Z.lor (Z.land b (u8 (Z.shiftl 0xFF (8 - lo)))) (u8 (Z.shiftr (Z.land b (u8 (Z.shiftl 0xFF (8 - lo)))) lo)).

(** The byte left in place of [b] by lines 383-386, before the bits of the next byte are added. *)
Definition ip_a2u (lo b : Z) : Z :=
  Z.lor (Z.land b (u8 (Z.shiftr 0xFF (8 - lo)))) (u8 (Z.shiftl (Z.land b (u8 (Z.shiftr 0xFF (8 - lo)))) lo)).

Lemma u2a_ip_loop_ok : forall n fuel sw lo len a b c,
  (n < fuel)%nat -> 3 <= sw -> 0 <= lo < 8 -> 0 < len < 2 ^ sw ->
  ((0 < n)%nat -> 8 * Z.of_nat b + lo + 8 * Z.of_nat n < len) ->
  len <= 8 * Z.of_nat b + lo + 8 * Z.of_nat (S n) ->
  (b + S n <= length a)%nat -> 8 * Z.of_nat (length a) < 2 ^ sw ->
  0 <= c <= 8 * Z.of_nat b ->
  exists a',
    u2a_loop_ip fuel sw lo len a (8 * Z.of_nat b + lo) c =
      Ret (a', c + Z.of_nat (S n) * Z.min len (8 - lo) + Z.of_nat n * lo) /\
    length a' = length a /\
    forall i, nth i a' 0 =
      if (i =? b)%nat then ip_u2a lo (nth i a 0)
      else if ((b <? i) && (i <=? b + n))%nat
           then ip_u2a lo (u8 (Z.shiftl (nth i a 0) (8 - lo)))
           else nth i a 0.
Proof.
  induction n as [|n IH]; intros fuel sw lo len a b c Hf Hsw Hlo Hlen Hlow Hhigh Hs Hspace Hc;
    (destruct fuel as [|fuel]; [lia|]); pose proof (pow_sw sw Hsw) as Hpow;
    cbn [u2a_loop_ip]; rewrite byte_index by lia;
    rewrite rd_ok by lia; cbn [bind];
    rewrite wr_ok by lia; cbn [bind];
    rewrite !rd_ok by (rewrite replace_nth_length; lia); cbn [bind];
    rewrite wr_ok by (rewrite replace_nth_length; lia); cbn [bind];
    rewrite nth_replace_same by lia; rewrite replace_twice;
    (rewrite (szt_small sw (8 * Z.of_nat b + lo + 8)) by lia);
    (rewrite (szt_small sw (c + Z.min len (8 - lo))) by lia);
    fold (ip_u2a lo (nth b a 0)).
  - destruct (Z.ltb_spec (8 * Z.of_nat b + lo + 8) len); [lia|].
    eexists. split; [f_equal; f_equal; lia|]. split; [apply replace_nth_length|].
    intros i. rewrite replace_nth_nth by lia. destruct (Nat.eqb_spec i b) as [->|Hne]; [reflexivity|].
    destruct (Nat.ltb_spec b i), (Nat.leb_spec i (b + 0)); try reflexivity. lia.
  - destruct (Z.ltb_spec (8 * Z.of_nat b + lo + 8) len); [|lia].
    replace (8 * Z.of_nat b + lo + 8) with (8 * Z.of_nat (S b) + lo) by lia. rewrite byte_index by lia.
    rewrite rd_ok by (rewrite replace_nth_length; lia). cbn [bind].
    rewrite wr_ok by (rewrite replace_nth_length; lia). cbn [bind].
    rewrite (szt_small sw (c + Z.min len (8 - lo) + lo)) by lia.
    rewrite (replace_nth_nth _ b) by lia. destruct (Nat.eqb_spec (S b) b); [lia|].
    set (a1 := replace_nth (S b) _ _).
    assert (Hl1 : length a1 = length a) by (unfold a1; now rewrite !replace_nth_length).
    destruct (IH fuel sw lo len a1 (S b) (c + Z.min len (8 - lo) + lo)) as [a' [E [Hl Hn]]]; try lia.
    exists a'. split; [|split].
    + rewrite E. f_equal. f_equal. lia.
    + lia.
    + intros i. rewrite Hn. unfold a1.
      rewrite (replace_nth_nth _ (S b)) by (rewrite replace_nth_length; lia).
      rewrite (replace_nth_nth _ b) by lia.
      destruct (Nat.eqb_spec i (S b)) as [->|].
      * destruct (Nat.eqb_spec (S b) b); [lia|].
        destruct (Nat.ltb_spec b (S b)), (Nat.leb_spec (S b) (b + S n)); try lia. reflexivity.
      * destruct (Nat.eqb_spec i b) as [->|].
        -- destruct (Nat.ltb_spec (S b) b); [lia|]. reflexivity.
        -- destruct (Nat.ltb_spec (S b) i), (Nat.leb_spec i (S b + n)), (Nat.ltb_spec b i), (Nat.leb_spec i (b + S n));
             try lia; reflexivity.
Qed.

Lemma a2u_ip_loop_ok : forall n fuel sw lo len a b c,
  (n < fuel)%nat -> 3 <= sw -> 0 <= lo < 8 -> 0 < len < 2 ^ sw ->
  ((0 < n)%nat -> 8 * Z.of_nat b + lo + 8 * Z.of_nat n < len) ->
  len <= 8 * Z.of_nat b + lo + 8 * Z.of_nat (S n) ->
  (b + S n <= length a)%nat -> 8 * Z.of_nat (length a) < 2 ^ sw ->
  0 <= c <= 8 * Z.of_nat b ->
  exists a',
    a2u_loop_ip fuel sw lo len a (8 * Z.of_nat b + lo) c =
      Ret (a', c + Z.of_nat (S n) * Z.min len (8 - lo) + Z.of_nat n * lo) /\
    length a' = length a /\
    forall i, nth i a' 0 =
      if ((b <=? i) && (i <? b + n))%nat
      then Z.lor (ip_a2u lo (nth i a 0)) (u8 (Z.shiftr (nth (S i) a 0) (8 - lo)))
      else if (i =? b + n)%nat then ip_a2u lo (nth i a 0) else nth i a 0.
Proof.
  induction n as [|n IH]; intros fuel sw lo len a b c Hf Hsw Hlo Hlen Hlow Hhigh Hs Hspace Hc;
    (destruct fuel as [|fuel]; [lia|]); pose proof (pow_sw sw Hsw) as Hpow;
    cbn [a2u_loop_ip]; rewrite byte_index by lia;
    rewrite rd_ok by lia; cbn [bind];
    rewrite wr_ok by lia; cbn [bind];
    rewrite !rd_ok by (rewrite replace_nth_length; lia); cbn [bind];
    rewrite wr_ok by (rewrite replace_nth_length; lia); cbn [bind];
    rewrite nth_replace_same by lia; rewrite replace_twice;
    (rewrite (szt_small sw (8 * Z.of_nat b + lo + 8)) by lia);
    (rewrite (szt_small sw (c + Z.min len (8 - lo))) by lia);
    fold (ip_a2u lo (nth b a 0)).
  - destruct (Z.ltb_spec (8 * Z.of_nat b + lo + 8) len); [lia|].
    eexists. split; [f_equal; f_equal; lia|]. split; [apply replace_nth_length|].
    intros i. rewrite replace_nth_nth by lia.
    destruct (Nat.eqb_spec i b), (Nat.eqb_spec i (b + 0)), (Nat.leb_spec b i), (Nat.ltb_spec i (b + 0)); try lia;
      cbn [andb]; subst; reflexivity.
  - destruct (Z.ltb_spec (8 * Z.of_nat b + lo + 8) len); [|lia].
    replace (8 * Z.of_nat b + lo + 8) with (8 * Z.of_nat (S b) + lo) by lia. rewrite byte_index by lia.
    rewrite !rd_ok by (rewrite replace_nth_length; lia). cbn [bind].
    rewrite wr_ok by (rewrite replace_nth_length; lia). cbn [bind].
    rewrite (szt_small sw (c + Z.min len (8 - lo) + lo)) by lia.
    rewrite nth_replace_same by lia. rewrite replace_twice.
    rewrite (replace_nth_nth _ b) by lia. destruct (Nat.eqb_spec (S b) b); [lia|].
    set (a1 := replace_nth b _ _).
    assert (Hl1 : length a1 = length a) by (unfold a1; now rewrite !replace_nth_length).
    destruct (IH fuel sw lo len a1 (S b) (c + Z.min len (8 - lo) + lo)) as [a' [E [Hl Hn]]]; try lia.
    exists a'. split; [|split].
    + rewrite E. f_equal. f_equal. lia.
    + lia.
    + intros i. rewrite Hn. unfold a1.
      rewrite !(replace_nth_nth _ b) by lia.
      destruct (Nat.eqb_spec (S i) b), (Nat.eqb_spec i b), (Nat.leb_spec (S b) i), (Nat.ltb_spec i (S b + n)),
        (Nat.leb_spec b i), (Nat.ltb_spec i (b + S n)), (Nat.eqb_spec i (S b + n)), (Nat.eqb_spec i (b + S n));
        try lia; try reflexivity; subst; reflexivity.
Qed.

Lemma u2a_ip_loop_ub : forall n fuel sw lo len a b c,
  3 <= sw -> 0 <= lo < 8 -> 0 < len < 2 ^ sw ->
  ((0 < n)%nat -> 8 * Z.of_nat b + lo + 8 * Z.of_nat n < len) ->
  8 * Z.of_nat (length a) < 2 ^ sw -> (length a < b + S n)%nat ->
  u2a_loop_ip fuel sw lo len a (8 * Z.of_nat b + lo) c = UB.
Proof.
  induction n as [|n IH]; intros fuel sw lo len a b c Hsw Hlo Hlen Hlow Hspace Hub;
    (destruct fuel as [|fuel]; [reflexivity|]); pose proof (pow_sw sw Hsw) as Hpow;
    cbn [u2a_loop_ip]; rewrite byte_index by lia.
  - rewrite rd_ub by lia. reflexivity.
  - destruct (le_lt_dec (length a) b).
    { rewrite rd_ub by lia. reflexivity. }
    rewrite rd_ok by lia; cbn [bind]. rewrite wr_ok by lia; cbn [bind].
    rewrite !rd_ok by (rewrite replace_nth_length; lia); cbn [bind].
    rewrite wr_ok by (rewrite replace_nth_length; lia); cbn [bind].
    rewrite (szt_small sw (8 * Z.of_nat b + lo + 8)) by lia.
    destruct (Z.ltb_spec (8 * Z.of_nat b + lo + 8) len); [|lia].
    replace (8 * Z.of_nat b + lo + 8) with (8 * Z.of_nat (S b) + lo) by lia. rewrite byte_index by lia.
    destruct (le_lt_dec (length a) (S b)).
    { rewrite rd_ub by (rewrite !replace_nth_length; lia). reflexivity. }
    rewrite rd_ok by (rewrite !replace_nth_length; lia); cbn [bind].
    rewrite wr_ok by (rewrite !replace_nth_length; lia). cbn [bind].
    apply IH; auto; rewrite ?replace_nth_length; try lia.
Qed.

Lemma a2u_ip_loop_ub : forall n fuel sw lo len a b c,
  3 <= sw -> 0 <= lo < 8 -> 0 < len < 2 ^ sw ->
  ((0 < n)%nat -> 8 * Z.of_nat b + lo + 8 * Z.of_nat n < len) ->
  8 * Z.of_nat (length a) < 2 ^ sw -> (length a < b + S n)%nat ->
  a2u_loop_ip fuel sw lo len a (8 * Z.of_nat b + lo) c = UB.
Proof.
  induction n as [|n IH]; intros fuel sw lo len a b c Hsw Hlo Hlen Hlow Hspace Hub;
    (destruct fuel as [|fuel]; [reflexivity|]); pose proof (pow_sw sw Hsw) as Hpow;
    cbn [a2u_loop_ip]; rewrite byte_index by lia.
  - rewrite rd_ub by lia. reflexivity.
  - destruct (le_lt_dec (length a) b).
    { rewrite rd_ub by lia. reflexivity. }
    rewrite rd_ok by lia; cbn [bind]. rewrite wr_ok by lia; cbn [bind].
    rewrite !rd_ok by (rewrite replace_nth_length; lia); cbn [bind].
    rewrite wr_ok by (rewrite replace_nth_length; lia); cbn [bind].
    rewrite (szt_small sw (8 * Z.of_nat b + lo + 8)) by lia.
    destruct (Z.ltb_spec (8 * Z.of_nat b + lo + 8) len); [|lia].
    replace (8 * Z.of_nat b + lo + 8) with (8 * Z.of_nat (S b) + lo) by lia. rewrite byte_index by lia.
    destruct (le_lt_dec (length a) (S b)).
    { rewrite rd_ub by (rewrite !replace_nth_length; lia). reflexivity. }
    rewrite !rd_ok by (rewrite !replace_nth_length; lia); cbn [bind].
    rewrite wr_ok by (rewrite !replace_nth_length; lia). cbn [bind].
    apply IH; auto; rewrite ?replace_nth_length; try lia.
Qed.

Lemma ip_u2a_bit : forall lo b k, 0 <= lo < 8 -> 0 <= k < 8 ->
  Z.testbit (ip_u2a lo b) k =
    ((8 - lo <=? k) && Z.testbit b k) || ((8 - lo <=? k + lo) && (k + lo <? 8) && Z.testbit b (k + lo)).
Proof.
  intros lo b k Hlo Hk. unfold ip_u2a.
  rewrite Z.lor_spec, !testbit_u8, Z.shiftr_spec, !Z.land_spec, !testbit_u8, !Z.shiftl_spec by lia.
  destruct (Z.ltb_spec k 8); [|lia]. cbn [andb].
  destruct (Z.leb_spec (8 - lo) k), (Z.leb_spec (8 - lo) (k + lo)), (Z.ltb_spec (k + lo) 8); try lia; cbn [andb];
    rewrite ?(Z.testbit_neg_r 0xFF) by lia; rewrite ?testbit_ff by lia;
    repeat match goal with |- context [?x <? 8] => destruct (Z.ltb_spec x 8); try lia end;
    cbn [andb]; rewrite ?andb_false_r, ?andb_true_r, ?orb_false_r; reflexivity.
Qed.

Lemma ip_a2u_bit : forall lo b k, 0 <= lo < 8 -> 0 <= k < 8 ->
  Z.testbit (ip_a2u lo b) k =
    ((k <? lo) && Z.testbit b k) || ((0 <=? k - lo) && (k - lo <? lo) && Z.testbit b (k - lo)).
Proof.
  intros lo b k Hlo Hk. unfold ip_a2u.
  rewrite Z.lor_spec, !testbit_u8, Z.shiftl_spec, !Z.land_spec, !testbit_u8, !Z.shiftr_spec by lia.
  destruct (Z.ltb_spec k 8); [|lia]. cbn [andb].
  rewrite testbit_ff by lia.
  destruct (Z.leb_spec 0 (k - lo)).
  - rewrite testbit_u8, Z.shiftr_spec, testbit_ff by lia.
    destruct (Z.ltb_spec (k + (8 - lo)) 8), (Z.ltb_spec k lo), (Z.ltb_spec (k - lo) 8), (Z.ltb_spec (k - lo + (8 - lo)) 8),
      (Z.ltb_spec (k - lo) lo); try lia; cbn [andb]; rewrite ?andb_false_r, ?andb_true_r, ?orb_false_r; reflexivity.
  - rewrite (Z.testbit_neg_r b (k - lo)) by lia. cbn [andb].
    destruct (Z.ltb_spec (k + (8 - lo)) 8), (Z.ltb_spec k lo); try lia.
    cbn [andb]. rewrite ?andb_true_r, ?orb_false_r; reflexivity.
Qed.

Lemma u2a_ip_bits : forall sw a off len,
  3 <= sw -> byte_array sw a -> 0 <= off < 2 ^ sw -> 0 < len < 2 ^ sw ->
  off / 8 + bytes_visited off len <= Z.of_nat (length a) ->
  exists a', copyBitsUnalignedToAligned_ip sw a off len = Ret (a', ret_value off len) /\ length a' = length a /\
    forall j k, 0 <= j -> 0 <= k < 8 ->
      bit_at a' (8 * j + k) =
        if (off / 8 <=? j) && (j <? off / 8 + bytes_visited off len)
        then let kept m := (8 - off mod 8 <=? m) && (m <? 8) &&
                           bit_at a (if j =? off / 8 then 8 * j + m else 8 * j + (m - (8 - off mod 8))) in
             kept k || kept (k + off mod 8)
        else bit_at a (8 * j + k).
Proof.
  intros sw a off len Hsw [Hb Hsp] Ho Hl Hin.
  destruct (visited_split off len ltac:(lia) ltac:(lia)) as [n [Hn [Hz [Ho' [Hlo [H1 H2]]]]]].
  assert (0 <= off / 8) by (apply Z.div_pos; lia).
  destruct (u2a_ip_loop_ok n (S (length a)) sw (off mod 8) len a (Z.to_nat (off / 8)) 0) as [a' [E [Hla Ha]]]; try lia.
  exists a'. split; [|split; [exact Hla|]].
  - unfold copyBitsUnalignedToAligned_ip. destruct (Z.eqb_spec len 0); [lia|].
    rewrite <- Ho' in E. rewrite E. unfold ret_value. rewrite <- Hz. f_equal. f_equal. lia.
  - intros j k Hj Hk. rewrite !(bit_at_split _ j k) by lia. rewrite Ha. cbv zeta.
    destruct (Z.leb_spec (off / 8) j), (Z.ltb_spec j (off / 8 + bytes_visited off len)),
      (Z.eqb_spec j (off / 8)), (Nat.eqb_spec (Z.to_nat j) (Z.to_nat (off / 8))),
      (Nat.ltb_spec (Z.to_nat (off / 8)) (Z.to_nat j)),
      (Nat.leb_spec (Z.to_nat j) (Z.to_nat (off / 8) + n)); try lia; cbn [andb]; try reflexivity;
      rewrite ip_u2a_bit by lia.
    + destruct (Z.ltb_spec k 8); [|lia]. rewrite andb_true_r. rewrite (bit_at_split _ j k) by lia. f_equal.
      destruct (Z.leb_spec (8 - off mod 8) (k + off mod 8)), (Z.ltb_spec (k + off mod 8) 8); cbn [andb]; try reflexivity.
      rewrite bit_at_split by lia. reflexivity.
    + destruct (Z.ltb_spec k 8); [|lia]. rewrite andb_true_r. f_equal.
      * destruct (Z.leb_spec (8 - off mod 8) k); cbn [andb]; try reflexivity.
        rewrite bit_at_split by lia. rewrite testbit_u8, Z.shiftl_spec by lia.
        destruct (Z.ltb_spec k 8); [|lia]. reflexivity.
      * destruct (Z.leb_spec (8 - off mod 8) (k + off mod 8)), (Z.ltb_spec (k + off mod 8) 8); cbn [andb]; try reflexivity.
        rewrite bit_at_split by lia. rewrite testbit_u8, Z.shiftl_spec by lia.
        destruct (Z.ltb_spec (k + off mod 8) 8); [|lia]. reflexivity.
Qed.

Lemma a2u_ip_bits : forall sw a off len,
  3 <= sw -> byte_array sw a -> 0 <= off < 2 ^ sw -> 0 < len < 2 ^ sw ->
  off / 8 + bytes_visited off len <= Z.of_nat (length a) ->
  exists a', copyBitsAlignedToUnaligned_ip sw a off len = Ret (a', ret_value off len) /\ length a' = length a /\
    forall j k, 0 <= j -> 0 <= k < 8 ->
      bit_at a' (8 * j + k) =
        if (off / 8 <=? j) && (j <? off / 8 + bytes_visited off len)
        then let kept m := (0 <=? m) && (m <? off mod 8) && bit_at a (8 * j + m) in
             kept k || kept (k - off mod 8) ||
             ((k <? off mod 8) && (j + 1 <? off / 8 + bytes_visited off len) &&
              bit_at a (8 * (j + 1) + (8 - off mod 8 + k)))
        else bit_at a (8 * j + k).
Proof.
  intros sw a off len Hsw [Hb Hsp] Ho Hl Hin.
  destruct (visited_split off len ltac:(lia) ltac:(lia)) as [n [Hn [Hz [Ho' [Hlo [H1 H2]]]]]].
  assert (0 <= off / 8) by (apply Z.div_pos; lia).
  destruct (a2u_ip_loop_ok n (S (length a)) sw (off mod 8) len a (Z.to_nat (off / 8)) 0) as [a' [E [Hla Ha]]]; try lia.
  exists a'. split; [|split; [exact Hla|]].
  - unfold copyBitsAlignedToUnaligned_ip. destruct (Z.eqb_spec len 0); [lia|].
    rewrite <- Ho' in E. rewrite E. unfold ret_value. rewrite <- Hz. f_equal. f_equal. lia.
  - intros j k Hj Hk. rewrite !(bit_at_split _ j k) by lia. rewrite Ha. cbv zeta.
    assert (K : forall b, b = nth (Z.to_nat j) a 0 ->
      Z.testbit (ip_a2u (off mod 8) b) k =
      (0 <=? k) && (k <? off mod 8) && bit_at a (8 * j + k) ||
      (0 <=? k - off mod 8) && (k - off mod 8 <? off mod 8) && bit_at a (8 * j + (k - off mod 8))).
    { intros b ->. rewrite ip_a2u_bit by lia. destruct (Z.leb_spec 0 k); [|lia]. cbn [andb].
      rewrite (bit_at_split _ j k) by lia. f_equal.
      destruct (Z.leb_spec 0 (k - off mod 8)), (Z.ltb_spec (k - off mod 8) (off mod 8)); cbn [andb]; try reflexivity.
      rewrite bit_at_split by lia. reflexivity. }
    destruct (Z.leb_spec (off / 8) j), (Z.ltb_spec j (off / 8 + bytes_visited off len)),
      (Z.ltb_spec (j + 1) (off / 8 + bytes_visited off len)),
      (Nat.eqb_spec (Z.to_nat j) (Z.to_nat (off / 8) + n)),
      (Nat.leb_spec (Z.to_nat (off / 8)) (Z.to_nat j)),
      (Nat.ltb_spec (Z.to_nat j) (Z.to_nat (off / 8) + n)); try lia; cbn [andb]; try reflexivity.
    + rewrite Z.lor_spec, (K _ eq_refl). f_equal. rewrite andb_true_r.
      rewrite testbit_u8, Z.shiftr_spec by lia. destruct (Z.ltb_spec k 8); [|lia]. cbn [andb].
      replace (S (Z.to_nat j)) with (Z.to_nat (j + 1)) by lia.
      destruct (Z.ltb_spec k (off mod 8)); cbn [andb].
      * rewrite bit_at_split by lia. f_equal. lia.
      * apply testbit_byte_high; [apply Hb|lia].
    + rewrite (K _ eq_refl). rewrite andb_false_r. now rewrite orb_false_r.
Qed.

Lemma u2a_ip_ub : forall sw a off len,
  3 <= sw -> byte_array sw a -> 0 <= off < 2 ^ sw -> 0 < len < 2 ^ sw ->
  Z.of_nat (length a) < off / 8 + bytes_visited off len ->
  copyBitsUnalignedToAligned_ip sw a off len = UB.
Proof.
  intros sw a off len Hsw [Hb Hsp] Ho Hl Hub.
  destruct (visited_split off len ltac:(lia) ltac:(lia)) as [n [Hn [Hz [Ho' [Hlo [H1 H2]]]]]].
  assert (0 <= off / 8) by (apply Z.div_pos; lia).
  unfold copyBitsUnalignedToAligned_ip. destruct (Z.eqb_spec len 0); [lia|].
  rewrite Ho' at 2. rewrite (u2a_ip_loop_ub n) by (auto; lia). reflexivity.
Qed.

Lemma a2u_ip_ub : forall sw a off len,
  3 <= sw -> byte_array sw a -> 0 <= off < 2 ^ sw -> 0 < len < 2 ^ sw ->
  Z.of_nat (length a) < off / 8 + bytes_visited off len ->
  copyBitsAlignedToUnaligned_ip sw a off len = UB.
Proof.
  intros sw a off len Hsw [Hb Hsp] Ho Hl Hub.
  destruct (visited_split off len ltac:(lia) ltac:(lia)) as [n [Hn [Hz [Ho' [Hlo [H1 H2]]]]]].
  assert (0 <= off / 8) by (apply Z.div_pos; lia).
  unfold copyBitsAlignedToUnaligned_ip. destruct (Z.eqb_spec len 0); [lia|].
  rewrite Ho' at 2. rewrite (a2u_ip_loop_ub n) by (auto; lia). reflexivity.
Qed.
