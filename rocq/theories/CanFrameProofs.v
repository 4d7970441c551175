From Coq Require Import ZArith Bool List Lia.
From Verif Require Import Outcome CanFrameModel CanFrameSpec.
Import ListNotations.
Open Scope Z_scope.

(** ** Finite sweeps over codes and lengths *)

Definition zseq (n : nat) : list Z := map Z.of_nat (seq 0 n).

Lemma in_zseq : forall n x, 0 <= x < Z.of_nat n -> In x (zseq n).
Proof.
  intros n x H. unfold zseq. apply in_map_iff. exists (Z.to_nat x). split; [lia|].
  apply in_seq. lia.
Qed.

Lemma sweep1 : forall n (p : Z -> bool), forallb p (zseq n) = true -> forall x, 0 <= x < Z.of_nat n -> p x = true.
Proof. intros n p H x Hx. rewrite forallb_forall in H. apply H, in_zseq, Hx. Qed.

Lemma sweep2 : forall n m (p : Z -> Z -> bool),
  forallb (fun x => forallb (p x) (zseq m)) (zseq n) = true ->
  forall x y, 0 <= x < Z.of_nat n -> 0 <= y < Z.of_nat m -> p x y = true.
Proof.
  intros n m p H x y Hx Hy.
  apply (sweep1 m (p x)); auto. apply (sweep1 n _ H); auto.
Qed.

Definition ldlc (n : Z) : Z := nth (Z.to_nat n) length_to_dlc_lookup 0.

Lemma lengthToDlc_le : forall mtu n, n <= Z.of_nat mtu -> lengthToDlc mtu n = ldlc n.
Proof. intros. unfold lengthToDlc. destruct (Z.ltb_spec (Z.of_nat mtu) n); [lia|reflexivity]. Qed.

Lemma lengthToDlc_gt : forall mtu n, Z.of_nat mtu < n -> lengthToDlc mtu n = ldlc (Z.of_nat mtu).
Proof.
  intros. unfold lengthToDlc. destruct (Z.ltb_spec (Z.of_nat mtu) n); [|lia].
  unfold ldlc. now rewrite Nat2Z.id.
Qed.

(** The table reads of [lengthToDlc]/[dlcToLength] are in bounds. *)
Lemma lengthToDlc_in_bounds : forall mtu n, (mtu <= 64)%nat -> 0 <= n ->
  (mtu < length length_to_dlc_lookup)%nat /\
  (n <= Z.of_nat mtu -> (Z.to_nat n < length length_to_dlc_lookup)%nat).
Proof. intros. change (length length_to_dlc_lookup) with 65%nat. lia. Qed.

Lemma dlcToLength_iso : forall c, valid_code c -> dlcToLength c = iso_length c.
Proof.
  intros c Hc. apply Z.eqb_eq.
  apply (sweep1 16 (fun c => dlcToLength c =? iso_length c)); [vm_compute; reflexivity|].
  unfold valid_code in Hc. lia.
Qed.

Lemma dlcToLength_invalid : forall c, 15 < c -> dlcToLength c = 0.
Proof. intros c H. unfold dlcToLength. destruct (Z.ltb_spec c 16); [lia|reflexivity]. Qed.

Lemma dlcToLength_bound : forall c, 0 <= c -> 0 <= dlcToLength c <= 64.
Proof.
  intros c H. destruct (Z_le_gt_dec c 15).
  - assert ((0 <=? dlcToLength c) && (dlcToLength c <=? 64) = true) as E.
    { apply (sweep1 16 (fun c => (0 <=? dlcToLength c) && (dlcToLength c <=? 64))); [vm_compute; reflexivity|]. lia. }
    apply andb_true_iff in E. lia.
  - rewrite dlcToLength_invalid by lia. lia.
Qed.

Lemma ldlc_valid : forall n, 0 <= n <= 64 -> valid_code (ldlc n).
Proof.
  intros n H.
  assert ((0 <=? ldlc n) && (ldlc n <=? 15) = true) as E.
  { apply (sweep1 65 (fun n => (0 <=? ldlc n) && (ldlc n <=? 15))); [vm_compute; reflexivity|]. lia. }
  apply andb_true_iff in E. unfold valid_code. lia.
Qed.

Lemma ldlc_minimal : forall n, 0 <= n <= 64 ->
  n <= iso_length (ldlc n) /\ (forall c, 0 <= c < ldlc n -> iso_length c < n).
Proof.
  intros n H. split.
  - apply Z.leb_le. apply (sweep1 65 (fun n => n <=? iso_length (ldlc n))); [vm_compute; reflexivity|]. lia.
  - intros c Hc. pose proof (ldlc_valid n H) as Hv. unfold valid_code in Hv.
    assert (implb (c <? ldlc n) (iso_length c <? n) = true) as E.
    { apply (sweep2 16 65 (fun c n => implb (c <? ldlc n) (iso_length c <? n))); [vm_compute; reflexivity| |]; lia. }
    destruct (Z.ltb_spec c (ldlc n)); [|lia]. cbn [implb] in E. lia.
Qed.

Lemma lengthToDlc_spec : forall mtu n, (mtu <= 64)%nat -> 0 <= n <= Z.of_nat mtu ->
  valid_code (lengthToDlc mtu n) /\ n <= iso_length (lengthToDlc mtu n) /\
  (forall c, 0 <= c < lengthToDlc mtu n -> iso_length c < n).
Proof.
  intros mtu n Hm Hn. rewrite lengthToDlc_le by lia.
  split; [apply ldlc_valid; lia|]. apply ldlc_minimal; lia.
Qed.

Lemma lengthToDlc_saturates : forall mtu n, Z.of_nat mtu <= n ->
  lengthToDlc mtu n = lengthToDlc mtu (Z.of_nat mtu).
Proof.
  intros mtu n H. destruct (Z.eq_dec n (Z.of_nat mtu)); [now subst|].
  rewrite lengthToDlc_gt by lia. rewrite lengthToDlc_le by lia. reflexivity.
Qed.

Lemma code_roundtrip : forall c, valid_code c -> lengthToDlc 64 (dlcToLength c) = c.
Proof.
  intros c Hc. apply Z.eqb_eq.
  apply (sweep1 16 (fun c => lengthToDlc 64 (dlcToLength c) =? c)); [vm_compute; reflexivity|].
  unfold valid_code in Hc. lia.
Qed.

Lemma iso_mono : forall c d, valid_code c -> valid_code d -> c < d -> iso_length c < iso_length d.
Proof.
  intros c d Hc Hd H. unfold valid_code in *.
  assert (implb (c <? d) (iso_length c <? iso_length d) = true) as E.
  { apply (sweep2 16 16 (fun c d => implb (c <? d) (iso_length c <? iso_length d))); [vm_compute; reflexivity| |]; lia. }
  destruct (Z.ltb_spec c d); [|lia]. cbn [implb] in E. lia.
Qed.

Lemma length_roundtrip : forall n, 0 <= n <= 64 ->
  n <= dlcToLength (lengthToDlc 64 n) /\ (dlcToLength (lengthToDlc 64 n) = n <-> fd_length n).
Proof.
  intros n H. destruct (lengthToDlc_spec 64 n ltac:(lia) ltac:(lia)) as [Hv [Hle Hmin]].
  rewrite dlcToLength_iso by auto. split; auto. split.
  - intros E. exists (lengthToDlc 64 n). auto.
  - intros [c [Hc <-]].
    rewrite <- (dlcToLength_iso c Hc) at 1. rewrite code_roundtrip by auto. reflexivity.
Qed.

Lemma lengthToDlc_mono : forall mtu n m, (mtu <= 64)%nat -> 0 <= n <= m -> lengthToDlc mtu n <= lengthToDlc mtu m.
Proof.
  assert (Hl : forall n m, 0 <= n <= m -> m <= 64 -> ldlc n <= ldlc m).
  { intros n m H1 H2. assert (implb (n <=? m) (ldlc n <=? ldlc m) = true) as E.
    { apply (sweep2 65 65 (fun n m => implb (n <=? m) (ldlc n <=? ldlc m))); [vm_compute; reflexivity| |]; lia. }
    destruct (Z.leb_spec n m); [|lia]. cbn [implb] in E. lia. }
  intros mtu n m Hm H.
  destruct (Z_lt_le_dec (Z.of_nat mtu) m).
  - rewrite (lengthToDlc_gt mtu m) by lia.
    destruct (Z_lt_le_dec (Z.of_nat mtu) n).
    + rewrite lengthToDlc_gt by lia. lia.
    + rewrite lengthToDlc_le by lia. apply Hl; lia.
  - rewrite !lengthToDlc_le by lia. apply Hl; lia.
Qed.

Lemma dlcToLength_mono : forall c d, 0 <= c -> c <= d -> d <= 15 -> dlcToLength c <= dlcToLength d.
Proof.
  intros c d Hc H Hd. rewrite !dlcToLength_iso by (unfold valid_code; lia).
  destruct (Z.eq_dec c d); [subst; lia|].
  pose proof (iso_mono c d). unfold valid_code in *. lia.
Qed.

Lemma setDataLength_le : forall mtu f n, (mtu <= 64)%nat -> 0 <= n -> fd_length (Z.of_nat mtu) ->
  getDataLength (setDataLength mtu f n) <= Z.of_nat mtu.
Proof.
  intros mtu f n Hm Hn Hfd. unfold getDataLength, setDataLength. cbn [fdlc].
  assert (Hmax : dlcToLength (lengthToDlc mtu (Z.of_nat mtu)) = Z.of_nat mtu).
  { rewrite lengthToDlc_le by lia. rewrite <- (lengthToDlc_le 64) by lia.
    apply (length_roundtrip (Z.of_nat mtu)); auto; lia. }
  assert (Hb : lengthToDlc mtu n <= lengthToDlc mtu (Z.of_nat mtu)).
  { destruct (Z_lt_le_dec (Z.of_nat mtu) n).
    - rewrite (lengthToDlc_saturates mtu n) by lia. lia.
    - apply lengthToDlc_mono; lia. }
  destruct (lengthToDlc_spec mtu (Z.of_nat mtu) Hm ltac:(lia)) as [Hv _].
  assert (0 <= lengthToDlc mtu n).
  { destruct (Z_lt_le_dec (Z.of_nat mtu) n).
    - rewrite (lengthToDlc_saturates mtu n) by lia. apply Hv.
    - apply lengthToDlc_spec; lia. }
  rewrite <- Hmax at 1. apply dlcToLength_mono; auto. apply Hv.
Qed.

Lemma setDataLength_iff : forall mtu f, (mtu <= 64)%nat ->
  ((forall n, 0 <= n -> getDataLength (setDataLength mtu f n) <= Z.of_nat mtu) <-> fd_length (Z.of_nat mtu)).
Proof.
  intros mtu f Hm. split.
  - intros H. specialize (H (Z.of_nat mtu) ltac:(lia)).
    unfold getDataLength, setDataLength in H. cbn [fdlc] in H.
    destruct (lengthToDlc_spec mtu (Z.of_nat mtu) Hm ltac:(lia)) as [Hv [Hle _]].
    rewrite dlcToLength_iso in H by auto.
    exists (lengthToDlc mtu (Z.of_nat mtu)). split; auto. lia.
  - intros Hfd n Hn. apply setDataLength_le; auto.
Qed.

(** setDataLength gives at least the requested room, up to the MTU. *)
Lemma setDataLength_room : forall mtu f n, (mtu <= 64)%nat -> 0 <= n <= Z.of_nat mtu ->
  n <= getDataLength (setDataLength mtu f n).
Proof.
  intros mtu f n Hm Hn. unfold getDataLength, setDataLength. cbn [fdlc].
  destruct (lengthToDlc_spec mtu n Hm Hn) as [Hv [Hle _]]. rewrite dlcToLength_iso by auto. auto.
Qed.

(** ** Constructors *)

Lemma copy_into_ret : forall n src dst, (n <= length src)%nat -> (n <= length dst)%nat ->
  copy_into n src dst = Ret (firstn n src ++ skipn n dst).
Proof.
  intros. unfold copy_into.
  destruct (Nat.leb_spec n (length src)), (Nat.leb_spec n (length dst)); try lia. reflexivity.
Qed.

Lemma copy_into_ub : forall n src dst, (length src < n)%nat \/ (length dst < n)%nat -> copy_into n src dst = UB.
Proof.
  intros. unfold copy_into.
  destruct (Nat.leb_spec n (length src)), (Nat.leb_spec n (length dst)); try lia; reflexivity.
Qed.

Lemma skipn_repeat : forall (A : Type) (x : A) n m, skipn n (repeat x m) = repeat x (m - n).
Proof.
  induction n; intros m; simpl; [now rewrite Nat.sub_0_r|]. destruct m; simpl; auto.
Qed.

Lemma frame_make_ok : forall mtu id bytes dlc ts,
  0 <= dlc -> dlcToLength dlc <= Z.of_nat mtu -> dlcToLength dlc <= Z.of_nat (length bytes) ->
  frame_make mtu id (Some bytes) dlc ts =
    Ret (Frame id (firstn (Z.to_nat (dlcToLength dlc)) bytes ++ repeat 0 (mtu - Z.to_nat (dlcToLength dlc))) dlc ts).
Proof.
  intros. unfold frame_make. pose proof (dlcToLength_bound dlc H).
  rewrite copy_into_ret by (rewrite ?repeat_length; lia). cbn [bind]. now rewrite skipn_repeat.
Qed.

Lemma frame_make_ub_iff : forall mtu id bytes dlc ts,
  0 <= dlc ->
  (frame_make mtu id (Some bytes) dlc ts = UB <->
   Z.of_nat mtu < dlcToLength dlc \/ Z.of_nat (length bytes) < dlcToLength dlc).
Proof.
  intros. pose proof (dlcToLength_bound dlc H). split.
  - intros E. destruct (Z_lt_le_dec (Z.of_nat mtu) (dlcToLength dlc)); auto.
    destruct (Z_lt_le_dec (Z.of_nat (length bytes)) (dlcToLength dlc)); auto.
    rewrite frame_make_ok in E by auto. discriminate.
  - intros D. unfold frame_make. rewrite copy_into_ub; [reflexivity|]. rewrite repeat_length. lia.
Qed.

Lemma frame_make_bytes : forall mtu id bytes dlc ts f,
  0 <= dlc -> frame_make mtu id (Some bytes) dlc ts = Ret f ->
  fid f = id /\ fdlc f = dlc /\ fts f = ts /\ length (fdata f) = mtu /\
  (forall i, Z.of_nat i < dlcToLength dlc -> nth i (fdata f) 0 = nth i bytes 0) /\
  (forall i, dlcToLength dlc <= Z.of_nat i -> nth i (fdata f) 0 = 0).
Proof.
  intros mtu id bytes dlc ts f Hd E.
  assert (H : dlcToLength dlc <= Z.of_nat mtu /\ dlcToLength dlc <= Z.of_nat (length bytes)).
  { destruct (frame_make_ub_iff mtu id bytes dlc ts Hd) as [_ U]. rewrite E in U.
    split; apply Z.le_ngt; intros C; assert (Ret f = UB) by (apply U; lia); discriminate. }
  destruct H as [H1 H2]. rewrite frame_make_ok in E by auto. injection E as <-. cbn.
  pose proof (dlcToLength_bound dlc Hd) as Hb.
  set (L := Z.to_nat (dlcToLength dlc)) in *.
  assert (HL : length (firstn L bytes) = L) by (apply firstn_length_le; lia).
  repeat split.
  - rewrite app_length, repeat_length, HL. lia.
  - intros i Hi. rewrite app_nth1 by lia.
    rewrite <- (firstn_skipn L bytes) at 2. rewrite app_nth1 by lia. reflexivity.
  - intros i Hi. rewrite app_nth2 by lia. apply nth_repeat.
Qed.

Lemma frame_copy_ok : forall mtu f, length (fdata f) = mtu -> frame_copy mtu f = Ret f.
Proof.
  intros mtu f H. unfold frame_copy. rewrite copy_into_ret by (rewrite ?repeat_length; lia).
  cbn [bind]. rewrite skipn_repeat, Nat.sub_diag. cbn [repeat]. rewrite app_nil_r.
  rewrite <- H, firstn_all. now destruct f.
Qed.

Lemma frame_assign_ok : forall mtu self f,
  length (fdata f) = mtu -> length (fdata self) = mtu -> frame_assign mtu self f = Ret f.
Proof.
  intros mtu self f H H'. unfold frame_assign. rewrite copy_into_ret by lia.
  cbn [bind]. rewrite <- H' at 2. rewrite skipn_all, app_nil_r.
  rewrite <- H, firstn_all. now destruct f.
Qed.

(** ** Equality *)

Lemma equal_range_spec : forall n a b, (n <= length a)%nat -> (n <= length b)%nat ->
  exists r, equal_range n a b = Ret r /\ (r = true <-> forall i, (i < n)%nat -> nth i a 0 = nth i b 0).
Proof.
  induction n as [|n IH]; intros a b Ha Hb.
  - exists true. split; auto. split; [intros; lia|auto].
  - destruct a as [|x a]; [simpl in Ha; lia|]. destruct b as [|y b]; [simpl in Hb; lia|].
    simpl in Ha, Hb. simpl. destruct (Z.eqb_spec x y).
    + destruct (IH a b ltac:(lia) ltac:(lia)) as [r [E Hr]]. exists r. split; auto.
      rewrite Hr. subst y. split.
      * intros H [|i] Hi; auto. simpl. apply H. lia.
      * intros H i Hi. apply (H (S i)). lia.
    + exists false. split; auto. split; [discriminate|].
      intros H. exfalso. apply n0. apply (H 0%nat). lia.
Qed.

Lemma testbit_MaskExtID : forall k, 0 <= k -> Z.testbit MaskExtID k = (k <? 29).
Proof.
  intros k Hk. change MaskExtID with (Z.ones 29).
  destruct (Z.ltb_spec k 29).
  - apply Z.ones_spec_low. lia.
  - apply Z.ones_spec_high. lia.
Qed.

Lemma testbit_MaskIdWithFlags : forall fm k, 0 <= k ->
  Z.testbit (MaskIdWithFlags fm) k = (k <? 29) || ((29 <=? k) && (k <? 32) && Z.testbit fm (k - 29)).
Proof.
  intros fm k Hk. unfold MaskIdWithFlags. rewrite Z.lor_spec, testbit_MaskExtID by lia.
  f_equal. destruct (Z.ltb_spec k 32).
  - rewrite Z.mod_pow2_bits_low by lia. rewrite Z.shiftl_spec by lia.
    destruct (Z.leb_spec 29 k); [reflexivity|]. apply Z.testbit_neg_r. lia.
  - rewrite Z.mod_pow2_bits_high by lia. rewrite andb_false_r. reflexivity.
Qed.

Lemma compared_bit_mask : forall fm k,
  compared_bit fm k <-> 0 <= k /\ Z.testbit (MaskIdWithFlags fm) k = true.
Proof.
  intros fm k. unfold compared_bit. split.
  - intros H. split; [lia|]. rewrite testbit_MaskIdWithFlags by lia.
    destruct H as [H|[H Hb]].
    + destruct (Z.ltb_spec k 29); [reflexivity|lia].
    + rewrite Hb. destruct (Z.leb_spec 29 k), (Z.ltb_spec k 32); try lia; destruct (k <? 29); reflexivity.
  - intros [Hk Hb]. rewrite testbit_MaskIdWithFlags in Hb by lia.
    destruct (Z.ltb_spec k 29); [left; lia|]. cbn [orb] in Hb.
    apply andb_true_iff in Hb. destruct Hb as [Hb Hb2]. apply andb_true_iff in Hb. right. split; auto. lia.
Qed.

Lemma masked_eq_spec : forall fm x y,
  Z.land x (MaskIdWithFlags fm) = Z.land y (MaskIdWithFlags fm) <->
  (forall k, compared_bit fm k -> Z.testbit x k = Z.testbit y k).
Proof.
  intros fm x y. split.
  - intros E k Hk. apply compared_bit_mask in Hk. destruct Hk as [Hk Hb].
    assert (E' : Z.testbit (Z.land x (MaskIdWithFlags fm)) k = Z.testbit (Z.land y (MaskIdWithFlags fm)) k)
      by now rewrite E.
    rewrite !Z.land_spec, Hb, !andb_true_r in E'. exact E'.
  - intros H. apply Z.bits_inj'. intros k Hk. rewrite !Z.land_spec.
    destruct (Z.testbit (MaskIdWithFlags fm) k) eqn:Hb; [|now rewrite !andb_false_r].
    rewrite !andb_true_r. apply H. apply compared_bit_mask. auto.
Qed.

Lemma frame_eq_spec : forall mtu fm a b,
  frame_wf mtu a -> frame_wf mtu b ->
  exists r, frame_eq fm a b = Ret r /\ (r = true <-> frames_equal fm a b).
Proof.
  intros mtu fm a b [[Ha1 [Ha2 Ha3]] Ha4] [[Hb1 [Hb2 Hb3]] Hb4].
  unfold frame_eq, frames_equal, getDataLength in *.
  pose proof (dlcToLength_bound (fdlc a) Ha2) as Hbd.
  destruct (Z.eqb_spec (Z.land (fid a) (MaskIdWithFlags fm)) (Z.land (fid b) (MaskIdWithFlags fm))) as [Ei|Ei];
    [destruct (Z.eqb_spec (fdlc a) (fdlc b)) as [Ed|Ed]|]; cbn [andb].
  - destruct (equal_range_spec (Z.to_nat (dlcToLength (fdlc a))) (fdata a) (fdata b) ltac:(lia) ltac:(lia))
      as [r [E Hr]].
    exists r. split; auto. rewrite Hr, <- masked_eq_spec. split.
    + intros H. split; auto. split; auto. intros i Hi. apply H. lia.
    + intros [_ [_ H]] i Hi. apply H. lia.
  - exists false. split; auto. split; [discriminate|]. intros [_ [H _]]. contradiction.
  - exists false. split; auto. split; [discriminate|]. intros [H _]. apply masked_eq_spec in H. contradiction.
Qed.

Lemma frames_equal_refl : forall fm a, frames_equal fm a a.
Proof. intros. split; [|split]; auto. Qed.

Lemma frames_equal_sym : forall fm a b, frames_equal fm a b -> frames_equal fm b a.
Proof.
  intros fm a b [H1 [H2 H3]]. split; [|split]; auto.
  - intros k Hk. symmetry. auto.
  - intros i Hi. symmetry. apply H3. unfold getDataLength in *. now rewrite H2.
Qed.

Lemma frames_equal_trans : forall fm a b c, frames_equal fm a b -> frames_equal fm b c -> frames_equal fm a c.
Proof.
  intros fm a b c [H1 [H2 H3]] [K1 [K2 K3]]. split; [|split].
  - intros k Hk. rewrite H1 by auto. auto.
  - congruence.
  - intros i Hi. rewrite H3 by auto. apply K3. unfold getDataLength in *. now rewrite <- H2.
Qed.

Lemma frame_eq_true : forall mtu fm a b, frame_wf mtu a -> frame_wf mtu b ->
  (frame_eq fm a b = Ret true <-> frames_equal fm a b).
Proof.
  intros mtu fm a b Ha Hb. destruct (frame_eq_spec mtu fm a b Ha Hb) as [r [E Hr]]. rewrite E, <- Hr.
  split; [intros H; injection H; auto|congruence].
Qed.

Lemma frame_eq_equivalence : forall mtu fm a b c, frame_wf mtu a -> frame_wf mtu b -> frame_wf mtu c ->
  frame_eq fm a a = Ret true /\
  frame_eq fm a b = frame_eq fm b a /\
  (frame_eq fm a b = Ret true -> frame_eq fm b c = Ret true -> frame_eq fm a c = Ret true) /\
  (frame_ne fm a b = Ret true <-> frame_eq fm a b = Ret false) /\
  (frame_ne fm a b = Ret false <-> frame_eq fm a b = Ret true).
Proof.
  intros mtu fm a b c Ha Hb Hc. repeat split.
  - apply (frame_eq_true mtu); auto. apply frames_equal_refl.
  - destruct (frame_eq_spec mtu fm a b Ha Hb) as [r [E Hr]].
    destruct (frame_eq_spec mtu fm b a Hb Ha) as [s [F Hs]].
    rewrite E, F. f_equal. apply eq_true_iff_eq. rewrite Hr, Hs. split; apply frames_equal_sym.
  - rewrite !(frame_eq_true mtu) by auto. apply frames_equal_trans.
  - unfold frame_ne. destruct (frame_eq fm a b) as [[|]|]; simpl; congruence.
  - unfold frame_ne. destruct (frame_eq fm a b) as [[|]|]; simpl; congruence.
  - unfold frame_ne. destruct (frame_eq fm a b) as [[|]|]; simpl; congruence.
  - unfold frame_ne. destruct (frame_eq fm a b) as [[|]|]; simpl; congruence.
Qed.

(** ** Priority *)

Lemma land_MaskExtID : forall x, Z.land x MaskExtID = x mod 2 ^ 29.
Proof. intros. change MaskExtID with (Z.ones 29). apply Z.land_ones. lia. Qed.

Lemma mod_pow2_succ_bit : forall x n, 0 <= n ->
  x mod 2 ^ (n + 1) = x mod 2 ^ n + (if Z.testbit x n then 2 ^ n else 0).
Proof.
  intros x n Hn. replace (n + 1) with (Z.succ n) by lia. rewrite Z.pow_succ_r by lia.
  assert (0 < 2 ^ n) by (apply Z.pow_pos_nonneg; lia).
  rewrite (Z.mul_comm 2). rewrite Z.rem_mul_r by lia.
  rewrite Z.testbit_odd, Z.shiftr_div_pow2 by lia.
  rewrite Zmod_odd. destruct (Z.odd (x / 2 ^ n)); lia.
Qed.

Definition top_bits (id : Z) (n : nat) : list bool := map (fun k => Z.testbit id (Z.of_nat k)) (rev (seq 0 n)).

Lemma top_bits_S : forall id n, top_bits id (S n) = Z.testbit id (Z.of_nat n) :: top_bits id n.
Proof. intros. unfold top_bits. rewrite seq_S, rev_app_distr. reflexivity. Qed.

Lemma wins_iff : forall n a b,
  wins_arbitration (top_bits a n) (top_bits b n) = (a mod 2 ^ Z.of_nat n <? b mod 2 ^ Z.of_nat n).
Proof.
  induction n as [|n IH]; intros a b.
  - simpl. rewrite !Z.mod_1_r. reflexivity.
  - rewrite !top_bits_S. rewrite Nat2Z.inj_succ. replace (Z.succ (Z.of_nat n)) with (Z.of_nat n + 1) by lia.
    rewrite !mod_pow2_succ_bit by lia.
    assert (0 < 2 ^ Z.of_nat n) by (apply Z.pow_pos_nonneg; lia).
    pose proof (Z.mod_pos_bound a (2 ^ Z.of_nat n) ltac:(lia)).
    pose proof (Z.mod_pos_bound b (2 ^ Z.of_nat n) ltac:(lia)).
    simpl. specialize (IH a b).
    destruct (Z.testbit a (Z.of_nat n)), (Z.testbit b (Z.of_nat n)); try rewrite IH;
      repeat match goal with |- context [Z.ltb ?u ?v] => destruct (Z.ltb_spec u v) end; try lia; reflexivity.
Qed.

Lemma priority_is_arbitration : forall a b,
  priorityHigherThan a b = wins_arbitration (id_bits (fid a)) (id_bits (fid b)).
Proof.
  intros a b. unfold priorityHigherThan. rewrite !land_MaskExtID.
  symmetry. apply (wins_iff 29).
Qed.

Lemma priority_strict_weak : forall a b c,
  priorityHigherThan a a = false /\
  (priorityHigherThan a b = true -> priorityHigherThan b a = false) /\
  (priorityHigherThan a b = true -> priorityHigherThan b c = true -> priorityHigherThan a c = true) /\
  (priorityHigherThan a b = false -> priorityHigherThan b a = false ->
   priorityHigherThan b c = false -> priorityHigherThan c b = false ->
   priorityHigherThan a c = false /\ priorityHigherThan c a = false) /\
  (priorityHigherThan a b = false /\ priorityHigherThan b a = false <-> fid a mod 2 ^ 29 = fid b mod 2 ^ 29).
Proof.
  intros a b c. unfold priorityHigherThan. rewrite !land_MaskExtID.
  rewrite !Z.ltb_lt, !Z.ltb_ge. lia.
Qed.

Lemma priority_operators : forall a b,
  frame_gt a b = priorityHigherThan a b /\ frame_lt a b = priorityLowerThan a b /\
  frame_lt a b = frame_gt b a /\ priorityLowerThan a b = priorityHigherThan b a.
Proof. intros. repeat split. Qed.

Lemma equal_frames_same_priority : forall mtu fm a b,
  frame_wf mtu a -> frame_wf mtu b -> frame_eq fm a b = Ret true ->
  priorityHigherThan a b = false /\ priorityHigherThan b a = false.
Proof.
  intros mtu fm a b Ha Hb E. apply (frame_eq_true mtu) in E; auto. destruct E as [E _].
  assert (fid a mod 2 ^ 29 = fid b mod 2 ^ 29) as Em.
  { apply Z.bits_inj'. intros k Hk. destruct (Z_lt_le_dec k 29).
    - rewrite !Z.mod_pow2_bits_low by lia. apply E. left. lia.
    - rewrite !Z.mod_pow2_bits_high by lia. reflexivity. }
  unfold priorityHigherThan. rewrite !land_MaskExtID, Em. rewrite Z.ltb_irrefl. auto.
Qed.

(** ** Payload tables *)

Lemma fd_payload_table : forall n, (n < 64)%nat ->
  let len := nth n FD_PayloadLengthToFrameLength 0 + TailByteSizeBytes in
  fd_length len /\ Z.of_nat n + 1 <= len /\ (forall m, fd_length m -> Z.of_nat n + 1 <= m -> len <= m).
Proof.
  intros n Hn len.
  assert (E : len = iso_length (ldlc (Z.of_nat n + 1))).
  { unfold len. apply Z.eqb_eq.
    pose (p := fun x => nth (Z.to_nat x) FD_PayloadLengthToFrameLength 0 + TailByteSizeBytes =? iso_length (ldlc (x + 1))).
    assert (Hp : p (Z.of_nat n) = true) by (apply (sweep1 64 p); [vm_compute; reflexivity|lia]).
    unfold p in Hp. rewrite Nat2Z.id in Hp. exact Hp. }
  pose proof (ldlc_valid (Z.of_nat n + 1) ltac:(lia)) as Hv.
  destruct (ldlc_minimal (Z.of_nat n + 1) ltac:(lia)) as [Hle Hmin].
  rewrite E. repeat split.
  - exists (ldlc (Z.of_nat n + 1)). auto.
  - auto.
  - intros m [c [Hc <-]] Hm.
    destruct (Z_lt_le_dec c (ldlc (Z.of_nat n + 1))) as [L|L].
    + specialize (Hmin c). unfold valid_code in Hc. lia.
    + destruct (Z.eq_dec c (ldlc (Z.of_nat n + 1))) as [->|]; [lia|].
      pose proof (iso_mono (ldlc (Z.of_nat n + 1)) c Hv Hc). lia.
Qed.

Lemma classic_payload_table : forall n, (n < 8)%nat ->
  let len := nth n C2_PayloadLengthToFrameLength 0 + TailByteSizeBytes in
  classic_length len /\ len = Z.of_nat n + 1.
Proof.
  intros n Hn len.
  assert (E : len = Z.of_nat n + 1).
  { unfold len. apply Z.eqb_eq.
    pose (p := fun x => nth (Z.to_nat x) C2_PayloadLengthToFrameLength 0 + TailByteSizeBytes =? x + 1).
    assert (Hp : p (Z.of_nat n) = true) by (apply (sweep1 8 p); [vm_compute; reflexivity|lia]).
    unfold p in Hp. rewrite Nat2Z.id in Hp. exact Hp. }
  split; auto. unfold classic_length. lia.
Qed.

Lemma table_sizes : length FD_PayloadLengthToFrameLength = FD_MaxFrameSizeBytes /\
  length C2_PayloadLengthToFrameLength = C2_MaxFrameSizeBytes.
Proof. split; reflexivity. Qed.

(** ** Filters *)

Lemma filter_eq_spec : forall a b, filter_eq a b = true <-> flt_id a = flt_id b /\ flt_mask a = flt_mask b.
Proof. intros. unfold filter_eq. rewrite andb_true_iff, !Z.eqb_eq. intuition. Qed.

Lemma filter_copy_spec : forall a, filter_copy a = a /\ filter_eq (filter_copy a) a = true.
Proof. intros [i m]. split; [reflexivity|]. apply filter_eq_spec. auto. Qed.

(** ** Histories *)

Lemma replace_nth_length : forall A i (v : A) l, length (replace_nth i v l) = length l.
Proof. induction i; intros v [|h t]; simpl; auto. Qed.

Lemma replace_nth_nth : forall A i (v : A) l j d, (i < length l)%nat ->
  nth j (replace_nth i v l) d = if (j =? i)%nat then v else nth j l d.
Proof.
  induction i; intros v [|h t] j d H; simpl in H; try lia.
  - destruct j; reflexivity.
  - destruct j; simpl; auto. apply IHi. lia.
Qed.

Lemma replace_nth_Forall : forall A (P : A -> Prop) i v l, Forall P l -> P v -> Forall P (replace_nth i v l).
Proof.
  induction i; intros v [|h t] Hl Hv; simpl; auto; inversion Hl; subst; constructor; auto.
Qed.

Lemma get_ok : forall fs i, (i < length fs)%nat -> exists f, get fs i = Ret f /\ In f fs.
Proof.
  intros fs i H. unfold get. destruct (nth_error fs i) eqn:E.
  - exists f. split; auto. eapply nth_error_In; eauto.
  - apply nth_error_None in E. lia.
Qed.

Lemma frame_step_ok : forall mtu fs op,
  (mtu <= 64)%nat -> fd_length (Z.of_nat mtu) ->
  Forall (frame_wf mtu) fs -> op_respects mtu (length fs) op ->
  exists fs', frame_step mtu fs op = Ret fs' /\ Forall (frame_wf mtu) fs' /\
              length fs' = frames_after (length fs) op.
Proof.
  intros mtu fs op Hm Hfd Hwf Hop.
  assert (Hget : forall i, (i < length fs)%nat -> exists f, get fs i = Ret f /\ frame_wf mtu f).
  { intros i Hi. destruct (get_ok fs i Hi) as [f [E Hin]]. exists f. split; auto.
    rewrite Forall_forall in Hwf. auto. }
  destruct op as [|s|id d dlc ts|d s|i n|i v|i k v|i t|fm i j]; simpl in Hop; unfold frame_step, frames_after.
  - eexists. split; [reflexivity|]. split.
    + apply Forall_app. split; auto. constructor; auto. split; [split; [|split]|]; cbn; try lia.
      apply repeat_length.
    + rewrite app_length. simpl. lia.
  - destruct (Hget s Hop) as [f [E Hf]]. rewrite E. cbn [bind].
    rewrite frame_copy_ok by (apply Hf). cbn [bind]. eexists. split; [reflexivity|]. split.
    + apply Forall_app. split; auto.
    + rewrite app_length. simpl. lia.
  - destruct Hop as [Hid [Hdlc Hd]].
    assert (exists g, frame_make mtu id d dlc ts = Ret g /\ frame_wf mtu g) as [g [E Hg]].
    { destruct d as [bytes|].
      - destruct Hd as [H1 H2]. rewrite frame_make_ok by auto. eexists. split; [reflexivity|].
        pose proof (dlcToLength_bound dlc Hdlc).
        split; [split; [|split]|]; cbn; auto.
        rewrite app_length, repeat_length, firstn_length_le by lia. lia.
      - eexists. split; [reflexivity|]. split; [split; [|split]|]; cbn; try lia. apply repeat_length. }
    rewrite E. cbn [bind]. eexists. split; [reflexivity|]. split.
    + apply Forall_app. split; auto.
    + rewrite app_length. simpl. lia.
  - destruct Hop as [Hd [Hs Hne]].
    destruct (Hget d Hd) as [self [E Hself]]. destruct (Hget s Hs) as [rhs [F Hrhs]].
    rewrite E, F. cbn [bind]. apply Nat.eqb_neq in Hne. rewrite Hne.
    rewrite frame_assign_ok; [|apply Hrhs|apply Hself]. cbn [bind]. eexists. split; [reflexivity|]. split.
    + apply replace_nth_Forall; auto.
    + apply replace_nth_length.
  - destruct Hop as [Hi Hn]. destruct (Hget i Hi) as [f [E Hf]]. rewrite E. cbn [bind].
    eexists. split; [reflexivity|]. split; [|apply replace_nth_length].
    apply replace_nth_Forall; auto. split; [|apply setDataLength_le; auto].
    destruct Hf as [[H1 [H2 H3]] _]. split; [|split]; cbn; auto.
    destruct (Z_lt_le_dec (Z.of_nat mtu) n).
    + rewrite (lengthToDlc_saturates mtu n) by lia. apply lengthToDlc_spec; lia.
    + apply lengthToDlc_spec; lia.
  - destruct Hop as [Hi Hv]. destruct (Hget i Hi) as [f [E Hf]]. rewrite E. cbn [bind].
    eexists. split; [reflexivity|]. split; [|apply replace_nth_length].
    apply replace_nth_Forall; auto. destruct Hf as [[H1 [H2 H3]] H4]. split; [split; [|split]|]; auto.
  - destruct Hop as [Hi Hk]. destruct (Hget i Hi) as [f [E Hf]]. rewrite E. cbn [bind].
    destruct Hf as [[H1 [H2 H3]] H4].
    destruct (Nat.ltb_spec k (length (fdata f))); [|lia].
    eexists. split; [reflexivity|]. split; [|apply replace_nth_length].
    apply replace_nth_Forall; auto. split; [split; [|split]|]; cbn; auto. now rewrite replace_nth_length.
  - destruct (Hget i Hop) as [f [E Hf]]. rewrite E. cbn [bind].
    eexists. split; [reflexivity|]. split; [|apply replace_nth_length].
    apply replace_nth_Forall; auto.
  - destruct Hop as [Hi Hj]. destruct (Hget i Hi) as [f [E Hf]]. destruct (Hget j Hj) as [g [F Hg]].
    rewrite E, F. cbn [bind]. destruct (frame_eq_spec mtu fm f g Hf Hg) as [r [G _]]. rewrite G. cbn [bind].
    eexists. split; [reflexivity|]. auto.
Qed.

Lemma frame_run_ok : forall mtu ops fs,
  (mtu <= 64)%nat -> fd_length (Z.of_nat mtu) ->
  Forall (frame_wf mtu) fs -> ops_respect mtu (length fs) ops ->
  exists fs', frame_run mtu fs ops = Ret fs' /\ Forall (frame_wf mtu) fs'.
Proof.
  intros mtu ops. induction ops as [|op ops IH]; intros fs Hm Hfd Hwf Hops.
  - exists fs. auto.
  - destruct Hops as [Hop Hops].
    destruct (frame_step_ok mtu fs op Hm Hfd Hwf Hop) as [fs1 [E [Hwf1 Hl]]].
    simpl. rewrite E. cbn [bind]. apply IH; auto. now rewrite Hl.
Qed.

Lemma frame_history : forall mtu ops,
  (mtu <= 64)%nat -> fd_length (Z.of_nat mtu) -> ops_respect mtu 0 ops ->
  exists fs, frame_run mtu [] ops = Ret fs /\
    (forall f, In f fs -> length (fdata f) = mtu /\ getDataLength f <= Z.of_nat mtu).
Proof.
  intros mtu ops Hm Hfd Hops.
  destruct (frame_run_ok mtu ops [] Hm Hfd (Forall_nil _) Hops) as [fs [E Hwf]].
  exists fs. split; auto. intros f Hf. rewrite Forall_forall in Hwf. destruct (Hwf f Hf) as [[H1 _] H2]. auto.
Qed.

(** Copy and assignment produce an independent equal frame: later operations on one do not change the other. *)
Lemma assign_frame_independent : forall mtu fs d s op fs1 fs2 j,
  Forall (frame_wf mtu) fs -> (d < length fs)%nat -> (s < length fs)%nat -> d <> s ->
  frame_step mtu fs (OpAssign d s) = Ret fs1 ->
  frame_step mtu fs1 op = Ret fs2 ->
  (match op with
   | OpAssign i _ | OpSetLength i _ | OpSetId i _ | OpSetByte i _ _ | OpSetTime i _ => i = j
   | _ => False end) ->
  forall k, k <> j -> (k < length fs)%nat ->
    nth_error fs2 k = nth_error fs1 k /\
    nth_error fs1 d = nth_error fs s /\ nth_error fs1 s = nth_error fs s.
Proof.
  intros mtu fs d s op fs1 fs2 j Hwf Hd Hs Hne E1 E2 Hop k Hk Hkl.
  assert (Hrep : forall A i (v : A) l m, m <> i -> nth_error (replace_nth i v l) m = nth_error l m).
  { induction i; intros v [|h t] [|m] Hm; simpl; auto; try congruence. }
  assert (Hrep2 : forall A i (v : A) l, (i < length l)%nat -> nth_error (replace_nth i v l) i = Some v).
  { induction i; intros v [|h t] Hi; simpl in *; auto; try lia. apply IHi. lia. }
  split.
  - destruct op; try contradiction; subst; simpl in E2;
      repeat (apply bind_ret_inv in E2; destruct E2 as [? [? E2]]);
      try (injection E2 as <-; apply Hrep; auto).
    destruct (_ <? _)%nat; [|discriminate]. injection E2 as <-. apply Hrep; auto.
  - simpl in E1. destruct (get_ok fs d Hd) as [self [Ed Ind]]. destruct (get_ok fs s Hs) as [rhs [Es Ins]].
    rewrite Ed, Es in E1. cbn [bind] in E1. apply Nat.eqb_neq in Hne. rewrite Hne in E1.
    rewrite Forall_forall in Hwf.
    rewrite frame_assign_ok in E1; [|apply (Hwf rhs Ins)|apply (Hwf self Ind)].
    cbn [bind] in E1. injection E1 as <-. apply Nat.eqb_neq in Hne.
    rewrite Hrep2 by auto. rewrite Hrep by auto.
    unfold get in Es. destruct (nth_error fs s); [|discriminate]. injection Es as ->. auto.
Qed.

Lemma frame_make_null : forall mtu id dlc ts,
  exists f, frame_make mtu id None dlc ts = Ret f /\
    fid f = id /\ fts f = ts /\ getDLC f = 0 /\ getDataLength f = 0 /\ fdata f = repeat 0 mtu.
Proof. intros. eexists. split; [reflexivity|]. repeat split. Qed.

Lemma frame_eq_ids : forall mtu fm d c t x y,
  frame_wf mtu (Frame x d c t) -> frame_wf mtu (Frame y d c t) ->
  (frame_eq fm (Frame x d c t) (Frame y d c t) = Ret true <->
   (forall k, (0 <= k < 29 \/ (29 <= k < 32 /\ Z.testbit fm (k - 29) = true)) -> Z.testbit x k = Z.testbit y k)).
Proof.
  intros mtu fm d c t x y Hx Hy. rewrite (frame_eq_true mtu) by auto. unfold frames_equal. cbn [fid fdlc fdata].
  split; [intros [H _]; exact H|]. intros H. repeat split; auto.
Qed.

Lemma mask_mod8 : forall fm, MaskIdWithFlags fm = MaskIdWithFlags (fm mod 8).
Proof.
  intros fm. apply Z.bits_inj'. intros k Hk. rewrite !testbit_MaskIdWithFlags by lia.
  destruct (Z.leb_spec 29 k), (Z.ltb_spec k 32); try reflexivity.
  change 8 with (2 ^ 3). rewrite Z.mod_pow2_bits_low by lia. reflexivity.
Qed.

Lemma frame_eq_mask_mod8 : forall fm a b, frame_eq fm a b = frame_eq (fm mod 8) a b.
Proof. intros. unfold frame_eq. now rewrite <- (mask_mod8 fm). Qed.

Lemma self_assign_ub : forall mtu f, (0 < mtu)%nat -> frame_self_assign mtu f = UB.
Proof. intros [|m] f H; [lia|reflexivity]. Qed.

Lemma self_assign_empty : forall f, frame_self_assign 0 f = Ret f.
Proof. reflexivity. Qed.

Lemma nth_error_replace_other : forall A i k (v : A) l, i <> k -> nth_error (replace_nth i v l) k = nth_error l k.
Proof. induction i as [|i IH]; intros [|k] v [|h t] N; try reflexivity; try congruence. cbn. apply IH. congruence. Qed.
Lemma nth_error_replace_same : forall A i (v : A) l, (i < length l)%nat -> nth_error (replace_nth i v l) i = Some v.
Proof. induction i as [|i IH]; intros v [|h t] L; cbn in *; try lia; [reflexivity|]. apply IH. lia. Qed.

Lemma step_keeps : forall mtu fs op fs' k, untouched k [op] -> (k < length fs)%nat -> frame_step mtu fs op = Ret fs' ->
  nth_error fs' k = nth_error fs k /\ (length fs <= length fs')%nat.
Proof.
  intros mtu fs op fs' k U L E. inversion U as [|? ? T _]; subst. destruct op; cbn [frame_step] in E;
    repeat match type of E with
    | bind ?m _ = _ => let x := fresh "x" in destruct m as [x|] eqn:?; cbn [bind] in E; [|discriminate E]
    | (if ?b then _ else _) = _ => destruct b eqn:?; [|discriminate E]
    end; injection E as <-;
    rewrite ?replace_nth_length, ?app_length, ?nth_error_replace_other by assumption;
    split; try reflexivity; try (cbn; lia); apply nth_error_app1; exact L.
Qed.

Lemma run_keeps : forall mtu ops fs fs' k, untouched k ops -> (k < length fs)%nat -> frame_run mtu fs ops = Ret fs' ->
  nth_error fs' k = nth_error fs k.
Proof.
  induction ops as [|op ops IH]; intros fs fs' k U L E; cbn in E; [congruence|].
  destruct (frame_step mtu fs op) as [fs1|] eqn:S; cbn [bind] in E; [|discriminate E]. inversion U as [|? ? T U']; subst.
  destruct (step_keeps mtu fs op fs1 k ltac:(constructor; [exact T|constructor]) L S) as [H1 H2].
  rewrite (IH fs1 fs' k U' ltac:(lia) E). exact H1.
Qed.

Lemma copies_independent : forall mtu fs o d s ops fs',
  Forall (fun f => length (fdata f) = mtu) fs -> (s < length fs)%nat ->
  o = OpAssign d s /\ (d < length fs)%nat /\ d <> s \/ o = OpCopy s /\ d = length fs ->
  frame_run mtu fs (o :: ops) = Ret fs' ->
  (untouched d ops -> nth_error fs' d = nth_error fs s) /\ (untouched s ops -> nth_error fs' s = nth_error fs s).
Proof.
  intros mtu fs o d s ops fs' W LS O E. cbn [frame_run] in E.
  destruct (frame_step mtu fs o) as [fs1|] eqn:S; cbn [bind] in E; [|discriminate E].
  destruct (nth_error fs s) as [f|] eqn:NS; [|apply nth_error_None in NS; lia].
  rewrite Forall_forall in W. pose proof (W f (nth_error_In _ _ NS)) as LF.
  assert (nth_error fs1 d = Some f /\ nth_error fs1 s = Some f /\ (d < length fs1)%nat /\ (s < length fs1)%nat) as (D & SS & LD & LS1).
  { destruct O as [(-> & LD & N)|[-> ->]]; cbn [frame_step] in S; unfold get in S; rewrite NS in S.
    - destruct (nth_error fs d) as [g|] eqn:ND; cbn [bind] in S; [|discriminate S].
      destruct (d =? s)%nat eqn:DS; [apply Nat.eqb_eq in DS; congruence|].
      rewrite (frame_assign_ok mtu g f LF (W g (nth_error_In _ _ ND))) in S. cbn [bind] in S. injection S as <-.
      rewrite replace_nth_length, nth_error_replace_same, nth_error_replace_other by assumption. auto.
    - cbn [bind] in S. rewrite (frame_copy_ok mtu f LF) in S. cbn [bind] in S. injection S as <-.
      rewrite nth_error_app2, Nat.sub_diag, nth_error_app1, app_length by lia. cbn. repeat split; auto; lia. }
  split; intro U; [rewrite (run_keeps mtu ops fs1 fs' d U LD E)|rewrite (run_keeps mtu ops fs1 fs' s U LS1 E)]; assumption.
Qed.
