(** Proofs about the suite for bit copies. *)
From Coq Require Import ZArith Bool List Lia.
From Verif Require Import Outcome BitCopyModel CopySuiteModel CopySuiteSpec.
Import ListNotations.
Open Scope Z_scope.

Lemma returns_true : forall n c next, returns n c next = true -> exists d, c = Ret (d, n) /\ next d = true.
Proof.
  intros n [[d r]|] next H; [|discriminate]. cbn [returns] in H. apply andb_true_iff in H. destruct H as [H1 H2].
  apply Z.eqb_eq in H1. subst. eauto.
Qed.
Lemma holds_true : forall e d, holds e d = true -> d = Some e.
Proof. intros e [l|] H; [|discriminate]. cbn [holds] in H. destruct (list_eq_dec Z.eq_dec l e); [now subst|discriminate]. Qed.

(** What four of the test cases say. *)
Lemma accepted_facts : forall u2a a2u, accepts u2a a2u = true ->
  u2a (Some [0x55]) 1 (Some [0xFF]) 7 = Ret (Some [0xAA], 7) /\
  u2a (Some [0x55]) 1 (Some [0x00]) 7 = Ret (Some [0x2A], 7) /\
  u2a (Some [0x55; 0x55]) 1 (Some [0; 0]) 16 = Ret (Some [0x2A; 0xAA], 15) /\
  a2u (Some [0x55]) (Some [0xFF]) 1 8 = Ret (Some [0xAB], 7) /\
  a2u (Some [0xAA; 0xAA]) (Some [0; 0]) 1 16 = Ret (Some [0x55; 0x54], 15).
Proof.
  intros u2a a2u H. unfold accepts in H. rewrite forallb_forall in H.
  assert (T1 := H OneByteUnalignedIntoOneAligned ltac:(cbn; tauto)).
  assert (T2 := H TwoByteUnalignedIntoTwoAligned ltac:(cbn; tauto)).
  assert (T3 := H OneByteAlignedIntoOneUnaligned ltac:(cbn; tauto)).
  assert (T4 := H TwoByteAlignedIntoTwoUnaligned ltac:(cbn; tauto)).
  cbn beta in *. unfold OneByteUnalignedIntoOneAligned, TwoByteUnalignedIntoTwoAligned, OneByteAlignedIntoOneUnaligned,
    TwoByteAlignedIntoTwoUnaligned in *. clear H.
  apply returns_true in T1, T2, T3, T4.
  destruct T1 as (d1 & E1 & T1), T2 as (d2 & E2 & T2), T3 as (d3 & E3 & T3), T4 as (d4 & E4 & T4).
  apply andb_true_iff in T1, T2, T3, T4. destruct T1 as [H1 T1], T2 as [H2 T2], T3 as [H3 T3], T4 as [H4 T4].
  apply holds_true in H1, H2, H3, H4. subst.
  apply returns_true in T1, T2, T4. destruct T1 as (d1 & E1' & T1), T2 as (d2 & E2' & T2), T4 as (d4 & E4' & T4).
  apply holds_true in T1, T2, T4. subst. auto.
Qed.

Ltac is_bytes := unfold bytes; repeat constructor; lia.

Lemma counts_rejected : forall rd u2a a2u, sizes_unknown_to_aligned u2a -> counts_to_aligned rd u2a -> accepts u2a a2u = false.
Proof.
  intros rd u2a a2u SU C. apply not_true_is_false. intros A. destruct (accepted_facts _ _ A) as (F1 & _ & F2 & _). destruct rd.
  - apply (SU _ _ [0] [0]) in F2; try is_bytes. destruct (C ([0x55; 0x55] ++ [0]) ([0; 0] ++ [0]) 1 16) as (d' & E); try is_bytes; auto.
    { unfold within. cbn. lia. }
    rewrite E in F2. discriminate.
  - destruct (C [0x55] [0xFF] 1 7) as (d' & E); try is_bytes; auto.
    { unfold within. cbn. lia. }
    rewrite E in F1. discriminate.
Qed.

Lemma moves_to_rejected : forall o rd p u2a a2u, sizes_unknown_to_aligned u2a -> moves_to_aligned o rd p u2a -> accepts u2a a2u = false.
Proof.
  intros o rd p u2a a2u SU M. apply not_true_is_false. intros A. destruct (accepted_facts _ _ A) as (_ & F1 & F2 & _). destruct o.
  - apply (SU _ _ [0] [0]) in F2; try is_bytes. destruct (M ([0x55; 0x55] ++ [0]) ([0; 0] ++ [0]) 1 16) as (d' & r & E & B); try is_bytes; auto.
    { unfold within. destruct rd; cbn; lia. }
    rewrite E in F2. injection F2 as -> _. specialize (B 7 ltac:(destruct rd; cbn; lia)). destruct p; discriminate.
  - destruct (M [0x55] [0x00] 1 7) as (d' & r & E & B); try is_bytes; auto.
    { unfold within. destruct rd; cbn; lia. }
    rewrite E in F1. injection F1 as -> _. specialize (B 0 ltac:(destruct rd; cbn; lia)). destruct p; discriminate.
Qed.

Lemma moves_from_rejected : forall o rd p u2a a2u, sizes_unknown_from_aligned a2u -> moves_from_aligned o rd p a2u -> accepts u2a a2u = false.
Proof.
  intros o rd p u2a a2u SU M. apply not_true_is_false. intros A. destruct (accepted_facts _ _ A) as (_ & _ & _ & F1 & F2). destruct o.
  - apply (SU _ _ [0] [0]) in F2; try is_bytes. destruct (M ([0xAA; 0xAA] ++ [0]) ([0; 0] ++ [0]) 1 16) as (d' & r & E & B); try is_bytes; auto.
    { unfold within. destruct rd; cbn; lia. }
    rewrite E in F2. injection F2 as -> _. specialize (B 7 ltac:(destruct rd; cbn; lia)). destruct p; discriminate.
  - apply (SU _ _ [0] [0]) in F1; try is_bytes. destruct (M ([0x55] ++ [0]) ([0xFF] ++ [0]) 1 8) as (d' & r & E & B); try is_bytes; auto.
    { unfold within. destruct rd; cbn; lia. }
    rewrite E in F1. injection F1 as -> _. specialize (B 6 ltac:(destruct rd; cbn; lia)). destruct p; discriminate.
Qed.

(** ** The library's copies are accepted, whatever the width of size_t *)

Lemma szt_small : forall sw x, 8 <= sw -> 0 <= x < 256 -> szt sw x = x.
Proof.
  intros sw x W X. unfold szt. apply Z.mod_small. assert (2 ^ 8 <= 2 ^ sw) by (apply Z.pow_le_mono_r; lia). change (2 ^ 8) with 256 in *. lia.
Qed.

Lemma u2a_loop_width : forall sw s lo len, 8 <= sw -> 0 <= lo < 8 -> 0 <= len ->
  forall fuel d off bc, 0 <= off -> off + 8 * Z.of_nat fuel < 256 -> 0 <= bc -> bc + 8 * Z.of_nat fuel < 256 ->
  u2a_loop fuel sw s lo len d off bc = u2a_loop fuel 8 s lo len d off bc.
Proof.
  intros sw s lo len W L N. induction fuel as [|k IH]; intros d off bc O O' B B'; [reflexivity|]. cbn [u2a_loop].
  rewrite (szt_small sw (bc + Z.min len (8 - lo))), (szt_small 8 (bc + Z.min len (8 - lo))) by lia.
  rewrite (szt_small sw (off + 8)), (szt_small 8 (off + 8)), (szt_small sw (_ + lo)), (szt_small 8 (_ + lo)) by lia.
  destruct (rd d _) as [x|]; cbn [bind]; [|reflexivity]. destruct (wr d _ _) as [d1|]; cbn [bind]; [|reflexivity].
  destruct (rd s _) as [y|]; cbn [bind]; [|reflexivity]. destruct (rd d1 _) as [z|]; cbn [bind]; [|reflexivity].
  destruct (wr d1 _ _) as [d2|]; cbn [bind]; [|reflexivity]. destruct (_ <? len); [|reflexivity].
  destruct (rd s _) as [y'|]; cbn [bind]; [|reflexivity]. destruct (wr d2 _ _) as [d3|]; cbn [bind]; [|reflexivity]. apply IH; lia.
Qed.

Lemma a2u_loop_width : forall sw s lo len, 8 <= sw -> 0 <= lo < 8 -> 0 <= len ->
  forall fuel d off bc, 0 <= off -> off + 8 * Z.of_nat fuel < 256 -> 0 <= bc -> bc + 8 * Z.of_nat fuel < 256 ->
  a2u_loop fuel sw s lo len d off bc = a2u_loop fuel 8 s lo len d off bc.
Proof.
  intros sw s lo len W L N. induction fuel as [|k IH]; intros d off bc O O' B B'; [reflexivity|]. cbn [a2u_loop].
  rewrite (szt_small sw (bc + Z.min len (8 - lo))), (szt_small 8 (bc + Z.min len (8 - lo))) by lia.
  rewrite (szt_small sw (off + 8)), (szt_small 8 (off + 8)), (szt_small sw (_ + lo)), (szt_small 8 (_ + lo)) by lia.
  destruct (rd d _) as [x|]; cbn [bind]; [|reflexivity]. destruct (wr d _ _) as [d1|]; cbn [bind]; [|reflexivity].
  destruct (rd s _) as [y|]; cbn [bind]; [|reflexivity]. destruct (rd d1 _) as [z|]; cbn [bind]; [|reflexivity].
  destruct (wr d1 _ _) as [d2|]; cbn [bind]; [|reflexivity]. destruct (_ <? len); [|reflexivity].
  destruct (rd s _) as [y'|]; cbn [bind]; [|reflexivity]. destruct (rd d2 _) as [z'|]; cbn [bind]; [|reflexivity].
  destruct (wr d2 _ _) as [d3|]; cbn [bind]; [|reflexivity]. apply IH; lia.
Qed.

Lemma u2a_width : forall sw s off d len, 8 <= sw -> 0 <= off <= 100 -> 0 <= len ->
  match s with Some l => (length l <= 12)%nat | None => True end ->
  copyBitsUnalignedToAligned sw s off d len = copyBitsUnalignedToAligned 8 s off d len.
Proof.
  intros sw [s|] off [d|] len W O N L; try reflexivity. unfold copyBitsUnalignedToAligned. destruct (len =? 0); [reflexivity|].
  rewrite u2a_loop_width; auto; try lia. pose proof (Z.mod_pos_bound off 8). lia.
Qed.
Lemma a2u_width : forall sw s off d len, 8 <= sw -> 0 <= off <= 100 -> 0 <= len ->
  match s with Some l => (length l <= 12)%nat | None => True end ->
  copyBitsAlignedToUnaligned sw s d off len = copyBitsAlignedToUnaligned 8 s d off len.
Proof.
  intros sw [s|] off [d|] len W O N L; try reflexivity. unfold copyBitsAlignedToUnaligned. destruct (len =? 0); [reflexivity|].
  rewrite a2u_loop_width; auto; try lia. pose proof (Z.mod_pos_bound off 8). lia.
Qed.

Lemma library_accepted : forall sw, 8 <= sw -> accepts (copyBitsUnalignedToAligned sw) (copyBitsAlignedToUnaligned sw) = true.
Proof.
  intros sw W. unfold accepts. apply forallb_forall. intros t I. unfold copy_cases in I. cbn [In] in I.
  repeat destruct I as [<-|I]; try contradiction;
  unfold InputsValidation, OneByteAlignedIntoOneAligned, OneByteAlignedIntoOneUnaligned, OneByteUnalignedIntoOneAligned, TwoBitsUnalignedIntoAligned,
    TwoBitsAlignedIntoUnaligned, TwoByteAlignedIntoTwoAligned, TwoByteUnalignedIntoTwoAligned, TwoByteAlignedIntoTwoUnaligned,
    StringUnalignedIntoStringAligned, SrcOffsetIsGreaterThanEight, DstOffsetIsGreaterThanEight; cbn zeta;
  repeat (match goal with
  | |- context [copyBitsUnalignedToAligned sw ?s ?o ?d ?l] => rewrite (u2a_width sw s o d l) by (auto; cbn; lia)
  | |- context [copyBitsAlignedToUnaligned sw ?s ?d ?o ?l] => rewrite (a2u_width sw s o d l) by (auto; cbn; lia)
  end;
  match goal with
  | |- context [copyBitsUnalignedToAligned 8 ?s ?o ?d ?l] => let v := eval vm_compute in (copyBitsUnalignedToAligned 8 s o d l) in
      change (copyBitsUnalignedToAligned 8 s o d l) with v
  | |- context [copyBitsAlignedToUnaligned 8 ?s ?d ?o ?l] => let v := eval vm_compute in (copyBitsAlignedToUnaligned 8 s d o l) in
      change (copyBitsAlignedToUnaligned 8 s d o l) with v
  end; cbn [returns holds Z.eqb Pos.eqb Z.sub Z.add Z.opp Z.pos_sub Pos.pred_double andb];
  repeat match goal with |- context [if list_eq_dec Z.eq_dec ?a ?b then true else false] =>
    let v := eval vm_compute in (if list_eq_dec Z.eq_dec a b then true else false) in
    change (if list_eq_dec Z.eq_dec a b then true else false) with v end; cbn [andb]); try reflexivity.
Qed.

(** ** Right copies exist *)

Definition pos (o : order) (b : Z) : Z := match o with LeastFirst => b | MostFirst => 7 - b end.

Lemma byte_of_bit : forall l k, (k < length l)%nat -> Z.testbit (byte_of l) (Z.of_nat k) = nth k l false.
Proof.
  induction l as [|b l IH]; intros k H; cbn [length] in H; [lia|]. cbn [byte_of]. destruct k as [|k].
  - apply Z.testbit_0_r.
  - rewrite Nat2Z.inj_succ, Z.testbit_succ_r by lia. cbn [nth]. apply IH. lia.
Qed.

Lemma array_length : forall o f n, length (array_of o f n) = n.
Proof. intros. unfold array_of. now rewrite map_length, seq_length. Qed.

Lemma array_bit : forall o f n k, 0 <= k < 8 * Z.of_nat n -> bit_in o (array_of o f n) k = f k.
Proof.
  intros o f n k K. unfold bit_in, array_of.
  assert (J : (Z.to_nat (k / 8) < n)%nat).
  { apply Nat2Z.inj_lt. rewrite Z2Nat.id by (apply Z.div_pos; lia). apply Z.div_lt_upper_bound; lia. }
  set (g := fun j : nat => byte_of _). rewrite (nth_indep _ 0 (g 0%nat)) by (rewrite map_length, seq_length; exact J).
  rewrite map_nth, seq_nth by exact J. cbn [Nat.add]. unfold g.
  rewrite Z2Nat.id by (apply Z.div_pos; lia).
  assert (M := Z.mod_pos_bound k 8 ltac:(lia)). assert (D := Z.div_mod k 8 ltac:(lia)).
  change (match o with LeastFirst => k mod 8 | MostFirst => 7 - k mod 8 end) with (pos o (k mod 8)).
  assert (P : 0 <= pos o (k mod 8) < 8) by (destruct o; cbn [pos]; lia).
  rewrite <- (Z2Nat.id (pos o (k mod 8))) by lia. rewrite byte_of_bit by (rewrite map_length; cbn [length]; lia).
  set (h := fun b : Z => f _). rewrite (nth_indep _ false (h 0)) by (rewrite map_length; cbn [length]; lia). rewrite map_nth.
  replace (nth (Z.to_nat (pos o (k mod 8))) [0; 1; 2; 3; 4; 5; 6; 7] 0) with (pos o (k mod 8)).
  - unfold h. f_equal. destruct o; cbn [pos]; lia.
  - generalize dependent (pos o (k mod 8)). intros x Hx.
    assert (x = 0 \/ x = 1 \/ x = 2 \/ x = 3 \/ x = 4 \/ x = 5 \/ x = 6 \/ x = 7) as C by lia.
    repeat destruct C as [->|C]; try reflexivity. now rewrite C.
Qed.

Lemma byte_again : forall x o, 0 <= x < 256 ->
  byte_of (map (fun b => Z.testbit x (pos o (pos o b))) [0; 1; 2; 3; 4; 5; 6; 7]) = x.
Proof.
  intros x o X.
  assert (A : forallb (fun n => byte_of (map (Z.testbit (Z.of_nat n)) [0; 1; 2; 3; 4; 5; 6; 7]) =? Z.of_nat n) (seq 0 256) = true)
    by (vm_compute; reflexivity).
  rewrite forallb_forall in A. specialize (A (Z.to_nat x) ltac:(apply in_seq; lia)). apply Z.eqb_eq in A.
  rewrite Z2Nat.id in A by lia. etransitivity; [|exact A]. destruct o; reflexivity.
Qed.

Lemma bit_app1 : forall o a b k, 0 <= k < 8 * Z.of_nat (length a) -> bit_in o (a ++ b) k = bit_in o a k.
Proof.
  intros o a b k K. unfold bit_in. rewrite app_nth1; [reflexivity|].
  apply Nat2Z.inj_lt. rewrite Z2Nat.id by (apply Z.div_pos; lia). apply Z.div_lt_upper_bound; lia.
Qed.

Lemma array_ext : forall o f g n, (forall k, 0 <= k < 8 * Z.of_nat n -> f k = g k) -> array_of o f n = array_of o g n.
Proof.
  intros o f g n H. unfold array_of. apply map_ext_in. intros j J. apply in_seq in J. f_equal. apply map_ext_in. intros b B. apply H.
  assert (0 <= b < 8) by (cbn [In] in B; lia). destruct o; lia.
Qed.

Lemma array_same : forall o d2 d f, bytes d2 -> (forall k, 8 * Z.of_nat (length d) <= k -> f k = bit_in o (d ++ d2) k) ->
  array_of o f (length (d ++ d2)) = array_of o f (length d) ++ d2.
Proof.
  intros o d2 d f B F. unfold array_of. rewrite app_length, seq_app, map_app. f_equal. cbn [Nat.add].
  apply nth_ext with (d := 0) (d' := 0); [now rewrite map_length, seq_length|]. intros j J. rewrite map_length, seq_length in J.
  set (g := fun j : nat => byte_of _). rewrite (nth_indep _ 0 (g 0%nat)) by (now rewrite map_length, seq_length).
  rewrite map_nth, seq_nth by exact J. unfold g.
  assert (X : 0 <= nth j d2 0 < 256) by (unfold bytes in B; rewrite Forall_forall in B; apply B, nth_In, J).
  rewrite <- (byte_again (nth j d2 0) o X) at 1. f_equal. apply map_ext_in. intros b I.
  assert (Hb : 0 <= b < 8) by (cbn [In] in I; lia). change (match o with LeastFirst => b | MostFirst => 7 - b end) with (pos o b).
  assert (Hp : 0 <= pos o b < 8) by (destruct o; cbn [pos]; lia). rewrite F by lia. unfold bit_in.
  replace ((8 * Z.of_nat (length d + j) + pos o b) / 8) with (Z.of_nat (length d + j)).
  2:{ rewrite Z.mul_comm, Z.div_add_l, (Z.div_small (pos o b) 8) by lia. lia. }
  replace ((8 * Z.of_nat (length d + j) + pos o b) mod 8) with (pos o b).
  2:{ rewrite Z.add_comm, Z.mul_comm, Z_mod_plus_full. now rewrite Z.mod_small. }
  rewrite Nat2Z.id, app_nth2, (Nat.add_comm (length d)), Nat.add_sub by lia. destruct o; reflexivity.
Qed.

Lemma right_copy_bits : forall o s d from to number, 0 <= from -> 0 <= to -> 0 < number -> from + number <= 8 * Z.of_nat (length s) ->
  to + number <= 8 * Z.of_nat (length d) ->
  exists d', right_copy o s d from to number = Ret (Some d', number) /\
    forall i, 0 <= i < number -> bit_in o d' (to + i) = bit_in o s (from + i).
Proof.
  intros o s d from to number A B C D E. unfold right_copy.
  destruct (Z.leb_spec 0 from); [|lia]. destruct (Z.leb_spec 0 to); [|lia]. destruct (Z.leb_spec (from + number) (8 * Z.of_nat (length s))); [|lia].
  destruct (Z.leb_spec (to + number) (8 * Z.of_nat (length d))); [|lia]. cbn [andb]. eexists. split; [reflexivity|]. intros i I.
  rewrite array_bit by lia. destruct (Z.leb_spec to (to + i)); [|lia]. destruct (Z.ltb_spec (to + i) (to + number)); [|lia]. cbn [andb].
  f_equal. lia.
Qed.

Lemma right_copy_larger : forall o s d s2 d2 from to number d' r, bytes d2 -> 0 <= number -> right_copy o s d from to number = Ret (Some d', r) ->
  right_copy o (s ++ s2) (d ++ d2) from to number = Ret (Some (d' ++ d2), r).
Proof.
  intros o s d s2 d2 from to number d' r B N E. unfold right_copy in *. rewrite !app_length, !Nat2Z.inj_add.
  destruct (Z.leb_spec 0 from); [|discriminate]. destruct (Z.leb_spec 0 to); [|discriminate].
  destruct (Z.leb_spec (from + number) (8 * Z.of_nat (length s))); [|discriminate].
  destruct (Z.leb_spec (to + number) (8 * Z.of_nat (length d))); [|discriminate]. cbn [andb] in *. injection E as <- <-.
  destruct (Z.leb_spec (from + number) (8 * (Z.of_nat (length s) + Z.of_nat (length s2)))); [|lia].
  destruct (Z.leb_spec (to + number) (8 * (Z.of_nat (length d) + Z.of_nat (length d2)))); [|lia]. cbn [andb]. do 3 f_equal.
  rewrite <- app_length. rewrite array_same; auto.
  - f_equal. apply array_ext. intros k K. destruct (Z.leb_spec to k); [|apply bit_app1; lia].
    destruct (Z.ltb_spec k (to + number)); [|apply bit_app1; lia]. cbn [andb]. apply bit_app1. lia.
  - intros k K. destruct (Z.leb_spec to k); [|reflexivity]. destruct (Z.ltb_spec k (to + number)); [lia|]. reflexivity.
Qed.

Lemma aligned_le : forall p off, 0 <= off -> 0 <= aligned_at p off <= off.
Proof. intros [] off H; cbn [aligned_at]; [lia|]. pose proof (Z.div_mod off 8 ltac:(lia)). pose proof (Z.mod_pos_bound off 8 ltac:(lia)). pose proof (Z.div_pos off 8 H ltac:(lia)). lia. Qed.

Lemma right_to_ok : forall o rd p, moves_to_aligned o rd p (right_to_aligned o rd p) /\ counts_to_aligned rd (right_to_aligned o rd p) /\
  sizes_unknown_to_aligned (right_to_aligned o rd p).
Proof.
  intros o rd p. split; [|split].
  - intros s d off len _ _ L (W1 & W2 & W3). unfold right_to_aligned. destruct (Z.leb_spec (count rd off len) 0); [lia|].
    pose proof (aligned_le p off W1).
    destruct (right_copy_bits o s d off (aligned_at p off) (count rd off len)) as (d' & E & H1); try rewrite <- L; try lia. eauto.
  - intros s d off len _ _ L (W1 & W2 & W3). unfold right_to_aligned. destruct (Z.leb_spec (count rd off len) 0); [lia|].
    pose proof (aligned_le p off W1).
    destruct (right_copy_bits o s d off (aligned_at p off) (count rd off len)) as (d' & E & H1); try rewrite <- L; try lia. eauto.
  - intros s d s2 d2 off len d' r _ _ _ B E. unfold right_to_aligned in *. destruct (Z.leb_spec (count rd off len) 0).
    + injection E as <- <-. reflexivity.
    + apply right_copy_larger; auto. lia.
Qed.

Lemma right_from_ok : forall o rd p, moves_from_aligned o rd p (right_from_aligned o rd p) /\ sizes_unknown_from_aligned (right_from_aligned o rd p).
Proof.
  intros o rd p. split.
  - intros s d off len _ _ L (W1 & W2 & W3). unfold right_from_aligned. destruct (Z.leb_spec (count rd off len) 0); [lia|].
    pose proof (aligned_le p off W1).
    destruct (right_copy_bits o s d (aligned_at p off) off (count rd off len)) as (d' & E & H1); try rewrite <- L; try lia. eauto.
  - intros s d s2 d2 off len d' r _ _ _ B E. unfold right_from_aligned in *. destruct (Z.leb_spec (count rd off len) 0).
    + injection E as <- <-. reflexivity.
    + apply right_copy_larger; auto. lia.
Qed.

(** ** The library's copies are not told the sizes either *)

Lemma rd_app : forall a b i x, rd a i = Ret x -> rd (a ++ b) i = Ret x.
Proof.
  intros a b i x H. unfold rd in *. destruct (Z.leb_spec 0 i); [|discriminate]. destruct (Z.ltb_spec i (Z.of_nat (length a))); [|discriminate].
  cbn [andb] in *. destruct (Z.ltb_spec i (Z.of_nat (length (a ++ b)))); [|rewrite app_length in *; lia]. injection H as <-.
  rewrite app_nth1 by lia. reflexivity.
Qed.
Lemma replace_app : forall (a b : list Z) n v, (n < length a)%nat ->
  CanFrameModel.replace_nth n v (a ++ b) = CanFrameModel.replace_nth n v a ++ b.
Proof.
  induction a as [|x a IH]; intros b n v H; cbn [length] in H; [lia|]. destruct n as [|n]; [reflexivity|]. cbn. now rewrite IH by lia.
Qed.
Lemma wr_app : forall a b i v a', wr a i v = Ret a' -> wr (a ++ b) i v = Ret (a' ++ b).
Proof.
  intros a b i x a' H. unfold wr in *. destruct (Z.leb_spec 0 i); [|discriminate]. destruct (Z.ltb_spec i (Z.of_nat (length a))); [|discriminate].
  cbn [andb] in *. destruct (Z.ltb_spec i (Z.of_nat (length (a ++ b)))); [|rewrite app_length in *; lia]. injection H as <-.
  rewrite replace_app by lia. reflexivity.
Qed.

Lemma u2a_loop_larger : forall sw s s2 d2 lo len fuel more d off bc d' r,
  u2a_loop fuel sw s lo len d off bc = Ret (d', r) -> u2a_loop (fuel + more) sw (s ++ s2) lo len (d ++ d2) off bc = Ret (d' ++ d2, r).
Proof.
  intros sw s s2 d2 lo len. induction fuel as [|k IH]; intros more d off bc d' r E; [discriminate|]. cbn [Nat.add u2a_loop] in *.
  match type of E with context [rd d ?i] => destruct (rd d i) as [x|] eqn:E1 end; cbn [bind] in E; [|discriminate]. rewrite (rd_app _ d2 _ _ E1). cbn [bind].
  match type of E with context [wr d ?i ?v] => destruct (wr d i v) as [d1|] eqn:E2 end; cbn [bind] in E; [|discriminate]. rewrite (wr_app _ d2 _ _ _ E2). cbn [bind].
  match type of E with context [rd s ?i] => destruct (rd s i) as [y|] eqn:E3 end; cbn [bind] in E; [|discriminate]. rewrite (rd_app _ s2 _ _ E3). cbn [bind].
  match type of E with context [rd d1 ?i] => destruct (rd d1 i) as [z|] eqn:E4 end; cbn [bind] in E; [|discriminate]. rewrite (rd_app _ d2 _ _ E4). cbn [bind].
  match type of E with context [wr d1 ?i ?v] => destruct (wr d1 i v) as [d3|] eqn:E5 end; cbn [bind] in E; [|discriminate]. rewrite (wr_app _ d2 _ _ _ E5). cbn [bind].
  destruct (_ <? len); [|now injection E as <- <-].
  match type of E with context [rd s ?i] => destruct (rd s i) as [y'|] eqn:E6 end; cbn [bind] in E; [|discriminate]. rewrite (rd_app _ s2 _ _ E6). cbn [bind].
  match type of E with context [wr d3 ?i ?v] => destruct (wr d3 i v) as [d4|] eqn:E7 end; cbn [bind] in E; [|discriminate]. rewrite (wr_app _ d2 _ _ _ E7). cbn [bind]. now apply IH.
Qed.
Lemma a2u_loop_larger : forall sw s s2 d2 lo len fuel more d off bc d' r,
  a2u_loop fuel sw s lo len d off bc = Ret (d', r) -> a2u_loop (fuel + more) sw (s ++ s2) lo len (d ++ d2) off bc = Ret (d' ++ d2, r).
Proof.
  intros sw s s2 d2 lo len. induction fuel as [|k IH]; intros more d off bc d' r E; [discriminate|]. cbn [Nat.add a2u_loop] in *.
  match type of E with context [rd d ?i] => destruct (rd d i) as [x|] eqn:E1 end; cbn [bind] in E; [|discriminate]. rewrite (rd_app _ d2 _ _ E1). cbn [bind].
  match type of E with context [wr d ?i ?v] => destruct (wr d i v) as [d1|] eqn:E2 end; cbn [bind] in E; [|discriminate]. rewrite (wr_app _ d2 _ _ _ E2). cbn [bind].
  match type of E with context [rd s ?i] => destruct (rd s i) as [y|] eqn:E3 end; cbn [bind] in E; [|discriminate]. rewrite (rd_app _ s2 _ _ E3). cbn [bind].
  match type of E with context [rd d1 ?i] => destruct (rd d1 i) as [z|] eqn:E4 end; cbn [bind] in E; [|discriminate]. rewrite (rd_app _ d2 _ _ E4). cbn [bind].
  match type of E with context [wr d1 ?i ?v] => destruct (wr d1 i v) as [d3|] eqn:E5 end; cbn [bind] in E; [|discriminate]. rewrite (wr_app _ d2 _ _ _ E5). cbn [bind].
  destruct (_ <? len); [|now injection E as <- <-].
  match type of E with context [rd s ?i] => destruct (rd s i) as [y'|] eqn:E6 end; cbn [bind] in E; [|discriminate]. rewrite (rd_app _ s2 _ _ E6). cbn [bind].
  match type of E with context [rd d3 ?i] => destruct (rd d3 i) as [z'|] eqn:E8 end; cbn [bind] in E; [|discriminate]. rewrite (rd_app _ d2 _ _ E8). cbn [bind].
  match type of E with context [wr d3 ?i ?v] => destruct (wr d3 i v) as [d4|] eqn:E7 end; cbn [bind] in E; [|discriminate]. rewrite (wr_app _ d2 _ _ _ E7). cbn [bind]. now apply IH.
Qed.

Lemma library_sizes : forall sw, sizes_unknown_to_aligned (copyBitsUnalignedToAligned sw) /\
  sizes_unknown_from_aligned (copyBitsAlignedToUnaligned sw).
Proof.
  intros sw. split; intros s d s2 d2 off len d' r _ _ _ _ E; unfold copyBitsUnalignedToAligned, copyBitsAlignedToUnaligned in *; destruct (len =? 0);
    try (injection E as <- <-; reflexivity).
  - destruct (u2a_loop _ _ _ _ _ _ _ _) as [[x y]|] eqn:L in E; [|discriminate]. cbn [bind fst snd] in E. injection E as <- <-.
    rewrite app_length. change (S (length s + length s2)) with (S (length s) + length s2)%nat. now rewrite (u2a_loop_larger _ _ _ _ _ _ _ _ _ _ _ _ _ L).
  - destruct (a2u_loop _ _ _ _ _ _ _ _) as [[x y]|] eqn:L in E; [|discriminate]. cbn [bind fst snd] in E. injection E as <- <-.
    rewrite app_length. change (S (length s + length s2)) with (S (length s) + length s2)%nat. now rewrite (a2u_loop_larger _ _ _ _ _ _ _ _ _ _ _ _ _ L).
Qed.

(** ** Exactly what is accepted *)

Lemma returns_iff : forall n c next, returns n c next = true <-> exists d, c = Ret (d, n) /\ next d = true.
Proof. intros n c next. split; [apply returns_true|]. intros (d & -> & H). cbn [returns]. now rewrite Z.eqb_refl. Qed.
Lemma holds_iff : forall e d, holds e d = true <-> d = Some e.
Proof. intros e d. split; [apply holds_true|]. intros ->. cbn [holds]. now destruct (list_eq_dec Z.eq_dec e e). Qed.
Lemma one_call : forall n c e, returns n c (holds e) = true <-> c = Ret (Some e, n).
Proof.
  intros. rewrite returns_iff. split; [intros (d & -> & H); apply holds_iff in H; now subst|]. intros ->. eexists. split; [reflexivity|]. now apply holds_iff.
Qed.
Lemma two_calls : forall n c e next, returns n c (fun d => holds e d && next d) = true <-> c = Ret (Some e, n) /\ next (Some e) = true.
Proof.
  intros. rewrite returns_iff. split.
  - intros (d & -> & H). apply andb_true_iff in H. destruct H as [H1 H2]. apply holds_iff in H1. now subst.
  - intros [-> H]. eexists. split; [reflexivity|]. apply andb_true_iff. split; [now apply holds_iff|exact H].
Qed.

Lemma accepts_exactly : forall u2a a2u, accepts u2a a2u = true <->
  InputsValidation u2a a2u = true /\
  (forall s off d len, In (s, off, d, len) calls_to_aligned ->
     u2a (Some s) off (Some d) len = copyBitsUnalignedToAligned 64 (Some s) off (Some d) len) /\
  (forall s off d len, In (s, off, d, len) calls_from_aligned ->
     a2u (Some s) (Some d) off len = copyBitsAlignedToUnaligned 64 (Some s) (Some d) off len).
Proof.
  intros u2a a2u. unfold accepts, copy_cases. cbn [forallb]. rewrite !andb_true_iff.
  unfold OneByteAlignedIntoOneAligned, OneByteAlignedIntoOneUnaligned, OneByteUnalignedIntoOneAligned, TwoBitsUnalignedIntoAligned,
    TwoBitsAlignedIntoUnaligned, TwoByteAlignedIntoTwoAligned, TwoByteUnalignedIntoTwoAligned, TwoByteAlignedIntoTwoUnaligned,
    StringUnalignedIntoStringAligned, SrcOffsetIsGreaterThanEight, DstOffsetIsGreaterThanEight. cbn zeta.
  rewrite !two_calls, !one_call.
  change (map (fun c : Z => u8 (Z.shiftl c 1)) _) with hello_shifted.
  split.
  - intros H. split; [apply H|]. split; intros s off d len I.
    + unfold calls_to_aligned in I. cbn [In repeat] in I. repeat destruct I as [I|I]; try contradiction; injection I as <- <- <- <-;
      match goal with |- _ = ?x => let v := eval vm_compute in x in change x with v end; apply H.
    + unfold calls_from_aligned in I. cbn [In] in I. repeat destruct I as [I|I]; try contradiction; injection I as <- <- <- <-;
      match goal with |- _ = ?x => let v := eval vm_compute in x in change x with v end; apply H.
  - intros (H & U & A).
    repeat split; try exact H;
    match goal with
    | |- u2a (Some ?s) ?o (Some ?d) ?l = _ => rewrite (U s o d l) by (unfold calls_to_aligned; cbn [In repeat]; tauto); vm_compute; reflexivity
    | |- a2u (Some ?s) (Some ?d) ?o ?l = _ => rewrite (A s o d l) by (unfold calls_from_aligned; cbn [In]; tauto); vm_compute; reflexivity
    end.
Qed.
