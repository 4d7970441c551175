(** The bit copies of libuavcan/include/libuavcan/platform/memory.hpp, lines 307-399, called with the same array as source
    and destination. Every read sees the writes made before it. *)
From Coq Require Import ZArith Bool List Lia.
From Verif Require Import Outcome CanFrameModel CanFrameProofs BitCopyModel BitCopySpec BitCopyProofs.
Import ListNotations.
Open Scope Z_scope.

(** memory.hpp lines 331-350 with src == dst. *)
Fixpoint u2a_loop_ip (fuel : nat) (sw lo len : Z) (a : list Z) (offset_bits bits_copied : Z) : outcome (list Z * Z) :=
  match fuel with
  | O => UB
  | S fuel' =>
      let current_byte := offset_bits / 8 in
      let bits_from_src_byte := 8 - lo in
      let bits_copied := szt sw (bits_copied + Z.min len bits_from_src_byte) in
      let* d := rd a current_byte in
      let* a := wr a current_byte (Z.land d (u8 (Z.shiftl 0xFF bits_from_src_byte))) in
      let* s := rd a current_byte in
      let* d := rd a current_byte in
      let* a := wr a current_byte (Z.lor d (u8 (Z.shiftr s lo))) in
      let offset_bits := szt sw (offset_bits + 8) in
      if offset_bits <? len
      then
        let current_byte := offset_bits / 8 in
        let* s := rd a current_byte in
        let* a := wr a current_byte (u8 (Z.shiftl s bits_from_src_byte)) in
        u2a_loop_ip fuel' sw lo len a offset_bits (szt sw (bits_copied + lo))
      else Ret (a, bits_copied)
  end.

(** memory.hpp lines 319-352 with src == dst, not null. *)
Definition copyBitsUnalignedToAligned_ip (sw : Z) (a : list Z) (off len : Z) : outcome (list Z * Z) :=
  if len =? 0 then Ret (a, 0) else u2a_loop_ip (S (length a)) sw (off mod 8) len a off 0.

(** memory.hpp lines 378-396 with src == dst. *)
Fixpoint a2u_loop_ip (fuel : nat) (sw lo len : Z) (a : list Z) (offset_bits bits_copied : Z) : outcome (list Z * Z) :=
  match fuel with
  | O => UB
  | S fuel' =>
      let current_byte := offset_bits / 8 in
      let bits_from_src_byte := 8 - lo in
      let* d := rd a current_byte in
      let* a := wr a current_byte (Z.land d (u8 (Z.shiftr 0xFF bits_from_src_byte))) in
      let* s := rd a current_byte in
      let* d := rd a current_byte in
      let* a := wr a current_byte (Z.lor d (u8 (Z.shiftl s lo))) in
      let offset_bits := szt sw (offset_bits + 8) in
      let bits_copied := szt sw (bits_copied + Z.min len bits_from_src_byte) in
      if offset_bits <? len
      then
        let* s := rd a (offset_bits / 8) in
        let* d := rd a current_byte in
        let* a := wr a current_byte (Z.lor d (u8 (Z.shiftr s bits_from_src_byte))) in
        a2u_loop_ip fuel' sw lo len a offset_bits (szt sw (bits_copied + lo))
      else Ret (a, bits_copied)
  end.

(** memory.hpp lines 366-399 with src == dst, not null. *)
Definition copyBitsAlignedToUnaligned_ip (sw : Z) (a : list Z) (off len : Z) : outcome (list Z * Z) :=
  if len =? 0 then Ret (a, 0) else a2u_loop_ip (S (length a)) sw (off mod 8) len a off 0.

Lemma u2a_ip_zero : forall n fuel sw len a b c,
  (n < fuel)%nat -> 3 <= sw -> 0 < len < 2 ^ sw ->
  ((0 < n)%nat -> 8 * Z.of_nat b + 8 * Z.of_nat n < len) ->
  len <= 8 * Z.of_nat b + 8 * Z.of_nat (S n) ->
  (b + S n <= length a)%nat -> 8 * Z.of_nat (length a) < 2 ^ sw ->
  exists a' r,
    u2a_loop_ip fuel sw 0 len a (8 * Z.of_nat b) c = Ret (a', r) /\ length a' = length a /\
    forall i, nth i a' 0 = if ((b <=? i) && (i <=? b + n))%nat then 0 else nth i a 0.
Proof.
  induction n as [|n IH]; intros fuel sw len a b c Hf Hsw Hlen Hlow Hhigh Hs Hspace;
    (destruct fuel as [|fuel]; [lia|]); pose proof (pow_sw sw Hsw) as Hpow;
    cbn [u2a_loop_ip]; (replace (8 * Z.of_nat b) with (8 * Z.of_nat b + 0) by lia); rewrite byte_index by lia;
    rewrite rd_ok by lia; cbn [bind];
    rewrite wr_ok by lia; cbn [bind];
    rewrite !rd_ok by (rewrite replace_nth_length; lia); cbn [bind];
    rewrite wr_ok by (rewrite replace_nth_length; lia); cbn [bind];
    rewrite nth_replace_same by lia; rewrite replace_twice;
    (rewrite (szt_small sw (8 * Z.of_nat b + 0 + 8)) by lia);
    change (u8 (Z.shiftl 255 (8 - 0))) with 0; rewrite Z.land_0_r;
    change (u8 (Z.shiftr 0 0)) with 0; change (Z.lor 0 0) with 0.
  - destruct (Z.ltb_spec (8 * Z.of_nat b + 0 + 8) len); [lia|].
    do 2 eexists. split; [reflexivity|]. split; [apply replace_nth_length|].
    intros i. rewrite replace_nth_nth by lia.
    destruct (Nat.eqb_spec i b), (Nat.leb_spec b i), (Nat.leb_spec i (b + 0)); try reflexivity; lia.
  - destruct (Z.ltb_spec (8 * Z.of_nat b + 0 + 8) len); [|lia].
    replace (8 * Z.of_nat b + 0 + 8) with (8 * Z.of_nat (S b) + 0) by lia. rewrite byte_index by lia.
    rewrite rd_ok by (rewrite replace_nth_length; lia). cbn [bind].
    rewrite wr_ok by (rewrite replace_nth_length; lia). cbn [bind].
    set (a1 := replace_nth (S b) _ _).
    assert (Hl1 : length a1 = length a) by (unfold a1; now rewrite !replace_nth_length).
    rewrite Z.add_0_r.
    edestruct (IH fuel sw len a1 (S b)) as [a' [r [E [Hl Hn]]]]; try lia.
    exists a', r. split; [exact E|]. split; [lia|].
    intros i. rewrite Hn. unfold a1.
    rewrite !replace_nth_nth by (rewrite ?replace_nth_length; lia).
    destruct (Nat.leb_spec (S b) i), (Nat.leb_spec i (S b + n)), (Nat.leb_spec b i), (Nat.leb_spec i (b + S n)),
      (Nat.eqb_spec i (S b)), (Nat.eqb_spec i b); try lia; reflexivity.
Qed.

Lemma a2u_ip_zero : forall n fuel sw len a b c,
  (forall i, 0 <= nth i a 0 < 256) ->
  (n < fuel)%nat -> 3 <= sw -> 0 < len < 2 ^ sw ->
  ((0 < n)%nat -> 8 * Z.of_nat b + 8 * Z.of_nat n < len) ->
  len <= 8 * Z.of_nat b + 8 * Z.of_nat (S n) ->
  (b + S n <= length a)%nat -> 8 * Z.of_nat (length a) < 2 ^ sw ->
  exists a' r,
    a2u_loop_ip fuel sw 0 len a (8 * Z.of_nat b) c = Ret (a', r) /\ length a' = length a /\
    forall i, nth i a' 0 = if ((b <=? i) && (i <=? b + n))%nat then 0 else nth i a 0.
Proof.
  induction n as [|n IH]; intros fuel sw len a b c Hbytes Hf Hsw Hlen Hlow Hhigh Hs Hspace;
    (destruct fuel as [|fuel]; [lia|]); pose proof (pow_sw sw Hsw) as Hpow;
    cbn [a2u_loop_ip]; (replace (8 * Z.of_nat b) with (8 * Z.of_nat b + 0) by lia); rewrite byte_index by lia;
    rewrite rd_ok by lia; cbn [bind];
    rewrite wr_ok by lia; cbn [bind];
    rewrite !rd_ok by (rewrite replace_nth_length; lia); cbn [bind];
    rewrite wr_ok by (rewrite replace_nth_length; lia); cbn [bind];
    rewrite nth_replace_same by lia; rewrite replace_twice;
    (rewrite (szt_small sw (8 * Z.of_nat b + 0 + 8)) by lia);
    change (u8 (Z.shiftr 255 (8 - 0))) with 0; rewrite Z.land_0_r;
    change (u8 (Z.shiftl 0 0)) with 0; change (Z.lor 0 0) with 0.
  - destruct (Z.ltb_spec (8 * Z.of_nat b + 0 + 8) len); [lia|].
    do 2 eexists. split; [reflexivity|]. split; [apply replace_nth_length|].
    intros i. rewrite replace_nth_nth by lia.
    destruct (Nat.eqb_spec i b), (Nat.leb_spec b i), (Nat.leb_spec i (b + 0)); try reflexivity; lia.
  - destruct (Z.ltb_spec (8 * Z.of_nat b + 0 + 8) len); [|lia].
    replace (8 * Z.of_nat b + 0 + 8) with (8 * Z.of_nat (S b) + 0) by lia. rewrite byte_index by lia.
    rewrite rd_ok by (rewrite replace_nth_length; lia). cbn [bind].
    rewrite rd_ok by (rewrite replace_nth_length; lia). cbn [bind].
    rewrite wr_ok by (rewrite replace_nth_length; lia). cbn [bind].
    rewrite replace_twice. rewrite nth_replace_same by lia.
    rewrite replace_nth_nth by lia. destruct (Nat.eqb_spec (S b) b); [lia|].
    assert (Hz : u8 (Z.shiftr (nth (S b) a 0) (8 - 0)) = 0).
    { rewrite Z.shiftr_div_pow2 by lia. change (2 ^ (8 - 0)) with 256.
      rewrite Z.div_small by apply Hbytes. reflexivity. }
    rewrite Hz. change (Z.lor 0 0) with 0. set (a1 := replace_nth b 0 a).
    assert (Hl1 : length a1 = length a) by (unfold a1; now rewrite !replace_nth_length).
    rewrite Z.add_0_r.
    assert (Hb1 : forall i, 0 <= nth i a1 0 < 256).
    { intros i. unfold a1. rewrite replace_nth_nth by lia. destruct (i =? b)%nat; [lia|apply Hbytes]. }
    match goal with |- context [a2u_loop_ip fuel sw 0 len a1 _ ?c'] => set (c1 := c') end.
    destruct (IH fuel sw len a1 (S b) c1 Hb1) as [a' [r [E [Hl Hn]]]]; try lia.
    exists a', r. split; [exact E|]. split; [lia|].
    intros i. rewrite Hn. unfold a1.
    rewrite (replace_nth_nth _ b) by lia.
    destruct (Nat.leb_spec (S b) i), (Nat.leb_spec i (S b + n)), (Nat.leb_spec b i), (Nat.leb_spec i (b + S n)),
       (Nat.eqb_spec i b); try lia; reflexivity.
Qed.

Lemma u2a_ip_erases : forall sw a off len,
  3 <= sw -> byte_array sw a -> 0 <= off -> 0 < len < 2 ^ sw -> off mod 8 = 0 ->
  off / 8 + bytes_visited off len <= Z.of_nat (length a) ->
  exists a' r, copyBitsUnalignedToAligned_ip sw a off len = Ret (a', r) /\
    forall k, 0 <= k -> bit_at a' k =
      if (off <=? k) && (k <? off + 8 * bytes_visited off len) then false else bit_at a k.
Proof.
  intros sw a off len Hsw [Hb Hsp] Ho Hl Hm Hin.
  destruct (visited_split off len ltac:(lia) ltac:(lia)) as [n [Hn [Hz [Ho' [Hlo [H1 H2]]]]]].
  assert (0 <= off / 8) by (apply Z.div_pos; lia).
  destruct (u2a_ip_zero n (S (length a)) sw len a (Z.to_nat (off / 8)) 0) as [a' [r [E [Hla Ha]]]]; try lia.
  exists a', r. split.
  - unfold copyBitsUnalignedToAligned_ip. destruct (Z.eqb_spec len 0); [lia|]. rewrite Hm.
    replace (8 * Z.of_nat (Z.to_nat (off / 8))) with off in E by lia. exact E.
  - intros k Hk. unfold bit_at. rewrite Ha.
    pose proof (Z.div_mod k 8 ltac:(lia)). pose proof (Z.mod_pos_bound k 8 ltac:(lia)).
    assert (0 <= k / 8) by (apply Z.div_pos; lia).
    destruct (Z.leb_spec off k), (Z.ltb_spec k (off + 8 * bytes_visited off len)),
      (Nat.leb_spec (Z.to_nat (off / 8)) (Z.to_nat (k / 8))),
      (Nat.leb_spec (Z.to_nat (k / 8)) (Z.to_nat (off / 8) + n)); cbn [andb]; try lia; try reflexivity.
    apply Z.testbit_0_l.
Qed.

Lemma a2u_ip_erases : forall sw a off len,
  3 <= sw -> byte_array sw a -> 0 <= off -> 0 < len < 2 ^ sw -> off mod 8 = 0 ->
  off / 8 + bytes_visited off len <= Z.of_nat (length a) ->
  exists a' r, copyBitsAlignedToUnaligned_ip sw a off len = Ret (a', r) /\
    forall k, 0 <= k -> bit_at a' k =
      if (off <=? k) && (k <? off + 8 * bytes_visited off len) then false else bit_at a k.
Proof.
  intros sw a off len Hsw [Hb Hsp] Ho Hl Hm Hin.
  destruct (visited_split off len ltac:(lia) ltac:(lia)) as [n [Hn [Hz [Ho' [Hlo [H1 H2]]]]]].
  assert (0 <= off / 8) by (apply Z.div_pos; lia).
  destruct (a2u_ip_zero n (S (length a)) sw len a (Z.to_nat (off / 8)) 0 Hb) as [a' [r [E [Hla Ha]]]]; try lia.
  exists a', r. split.
  - unfold copyBitsAlignedToUnaligned_ip. destruct (Z.eqb_spec len 0); [lia|]. rewrite Hm.
    replace (8 * Z.of_nat (Z.to_nat (off / 8))) with off in E by lia. exact E.
  - intros k Hk. unfold bit_at. rewrite Ha.
    pose proof (Z.div_mod k 8 ltac:(lia)). pose proof (Z.mod_pos_bound k 8 ltac:(lia)).
    assert (0 <= k / 8) by (apply Z.div_pos; lia).
    destruct (Z.leb_spec off k), (Z.ltb_spec k (off + 8 * bytes_visited off len)),
      (Nat.leb_spec (Z.to_nat (off / 8)) (Z.to_nat (k / 8))),
      (Nat.leb_spec (Z.to_nat (k / 8)) (Z.to_nat (off / 8) + n)); cbn [andb]; try lia; try reflexivity.
    apply Z.testbit_0_l.
Qed.
