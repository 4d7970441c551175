(** Proofs about the code for the evaluation board. *)
From Coq Require Import ZArith Bool List Lia.
From Verif Require Import Outcome TargetModel TargetSpec.
Import ListNotations.
Open Scope Z_scope.

(** ** The serial port *)
Lemma flag_bit : forall v n, 0 <= n -> (Z.shiftr (Z.land v (2 ^ n)) n =? 0) = negb (Z.testbit v n).
Proof.
  intros v n Hn. rewrite Z.shiftr_land.
  replace (Z.shiftr (2 ^ n) n) with (Z.ones 1).
  2:{ rewrite Z.shiftr_div_pow2, Z.div_same by (try apply Z.pow_nonzero; lia). reflexivity. }
  rewrite Z.land_ones by lia. rewrite Z.shiftr_div_pow2 by lia. change (2 ^ 1) with 2.
  rewrite <- Z.testbit_spec' by lia. destruct (Z.testbit v n); reflexivity.
Qed.

Lemma tdre_bit : forall v, (Z.shiftr (Z.land v TDRE_MASK) TDRE_SHIFT =? 0) = negb (Z.testbit v 23).
Proof. intros v. apply (flag_bit v 23). lia. Qed.
Lemma rdrf_bit : forall v, (Z.shiftr (Z.land v RDRF_MASK) RDRF_SHIFT =? 0) = negb (Z.testbit v 21).
Proof. intros v. apply (flag_bit v 21). lia. Qed.

Lemma wait_spec : forall fuel dev mask shift bit tr tr',
  (forall v, (Z.shiftr (Z.land v mask) shift =? 0) = negb (Z.testbit v bit)) ->
  wait_stat fuel dev mask shift tr = Some tr' ->
  exists busy v, Forall (fun s => Z.testbit s bit = false) busy /\ Z.testbit v bit = true /\
    tr' = tr ++ map RdStat busy ++ [RdStat v].
Proof.
  induction fuel as [|k IH]; intros dev mask shift bit tr tr' HB H; cbn [wait_stat] in H; [discriminate|].
  rewrite HB in H. destruct (Z.testbit (dev tr true) bit) eqn:T; cbn [negb] in H.
  - exists [], (dev tr true). split; [constructor|]. split; [exact T|]. cbn [map app]. congruence.
  - apply (IH _ _ _ bit) in H; auto. destruct H as (busy & v & B & V & ->).
    exists (dev tr true :: busy), v. split; [constructor; auto|]. split; auto. cbn [map app]. now rewrite <- app_assoc.
Qed.

Lemma wait_ends : forall n fuel dev mask shift bit tr,
  (forall v, (Z.shiftr (Z.land v mask) shift =? 0) = negb (Z.testbit v bit)) ->
  (n < fuel)%nat -> Z.testbit (dev (polled dev tr n) true) bit = true -> exists tr', wait_stat fuel dev mask shift tr = Some tr'.
Proof.
  induction n as [|n IH]; intros fuel dev mask shift bit tr HB F T; (destruct fuel as [|fuel]; [lia|]); cbn [wait_stat polled] in *; rewrite HB.
  - rewrite T. cbn [negb]. eauto.
  - destruct (Z.testbit (dev tr true) bit); cbn [negb]; eauto. eapply IH; eauto. lia.
Qed.

Lemma wait_hangs : forall fuel dev mask shift bit tr,
  (forall v, (Z.shiftr (Z.land v mask) shift =? 0) = negb (Z.testbit v bit)) ->
  (forall t, Z.testbit (dev t true) bit = false) -> wait_stat fuel dev mask shift tr = None.
Proof.
  induction fuel as [|k IH]; intros dev mask shift bit tr HB N; cbn [wait_stat]; auto. rewrite HB, N. cbn [negb]. eapply IH; eauto.
Qed.

Lemma transmit_char_spec : forall fuel dev tr c tr', transmit_char fuel dev tr c = Some tr' ->
  exists busy v, Forall (fun s => Z.testbit s 23 = false) busy /\ Z.testbit v 23 = true /\
    tr' = tr ++ map RdStat busy ++ [RdStat v; WrData c].
Proof.
  intros fuel dev tr c tr' H. unfold transmit_char in H. destruct (wait_stat _ _ _ _ _) as [t|] eqn:W; [|discriminate].
  apply (wait_spec _ _ _ _ 23) in W; [|exact tdre_bit]. destruct W as (busy & v & B & V & ->). exists busy, v. split; auto. split; auto.
  assert (tr' = (tr ++ map RdStat busy ++ [RdStat v]) ++ [WrData c]) as -> by congruence. rewrite <- !app_assoc. reflexivity.
Qed.

Lemma transmit_char_ends : forall fuel dev tr c, ready_within fuel 23 dev -> exists tr', transmit_char fuel dev tr c = Some tr'.
Proof.
  intros fuel dev tr c R. destruct (R tr) as (k & K & T). unfold transmit_char.
  destruct (wait_ends k fuel dev TDRE_MASK TDRE_SHIFT 23 tr tdre_bit K T) as (t & ->). eauto.
Qed.

Lemma transmit_len_spec : forall len fuel dev tr data,
  match transmit_string_len fuel dev tr data len with
  | None => ~ ready_within fuel 23 dev
  | Some UB => (length data < len)%nat
  | Some (Ret tr') => (len <= length data)%nat /\ exists acc, tr' = tr ++ acc /\ sends (firstn len data) acc
  end.
Proof.
  induction len as [|len IH]; intros fuel dev tr data; cbn [transmit_string_len].
  - split; [lia|]. exists []. rewrite app_nil_r. split; auto. constructor.
  - destruct data as [|c data]; [cbn; lia|]. destruct (transmit_char fuel dev tr c) as [t|] eqn:E.
    + apply transmit_char_spec in E. destruct E as (busy & v & B & V & ->).
      specialize (IH fuel dev (tr ++ map RdStat busy ++ [RdStat v; WrData c]) data).
      destruct (transmit_string_len _ _ _ _ _) as [[tr'|]|]; auto.
      * destruct IH as (L & acc & -> & SN). split; [cbn [length]; lia|].
        exists (map RdStat busy ++ [RdStat v; WrData c] ++ acc). split; [rewrite <- !app_assoc; reflexivity|].
        cbn [firstn]. now constructor.
      * cbn [length]. lia.
    + intros R. destruct (transmit_char_ends fuel dev tr c R) as (t & T). congruence.
Qed.

Lemma transmit_string_spec : forall data fuel dev tr,
  match transmit_string fuel dev tr data with
  | None => ~ ready_within fuel 23 dev
  | Some UB => ~ In 0 data
  | Some (Ret tr') => In 0 data /\ exists acc, tr' = tr ++ acc /\ sends (before_null data) acc
  end.
Proof.
  induction data as [|c data IH]; intros fuel dev tr; cbn [transmit_string before_null]; [auto|].
  destruct (Z.eqb_spec c 0) as [->|N].
  - split; [now left|]. exists []. rewrite app_nil_r. split; auto. constructor.
  - destruct (transmit_char fuel dev tr c) as [t|] eqn:E.
    + apply transmit_char_spec in E. destruct E as (busy & v & B & V & ->).
      specialize (IH fuel dev (tr ++ map RdStat busy ++ [RdStat v; WrData c])).
      destruct (transmit_string _ _ _ _) as [[tr'|]|]; auto.
      * destruct IH as (L & acc & -> & SN). split; [now right|].
        exists (map RdStat busy ++ [RdStat v; WrData c] ++ acc). split; [rewrite <- !app_assoc; reflexivity|]. now constructor.
      * intros [I|I]; auto.
    + intros R. destruct (transmit_char_ends fuel dev tr c R) as (t & T). congruence.
Qed.

Lemma sends_one : forall busy v c, Forall (fun s => Z.testbit s 23 = false) busy -> Z.testbit v 23 = true ->
  sends [c] (map RdStat busy ++ [RdStat v; WrData c]).
Proof. intros busy v c B V. exact (sends_cons c [] busy v [] B V sends_nil). Qed.

Lemma sends_app : forall a x b y, sends a x -> sends b y -> sends (a ++ b) (x ++ y).
Proof.
  intros a x b y H. induction H; intros Y; cbn [app]; auto. rewrite <- app_assoc. constructor; auto.
Qed.

Lemma echo_spec : forall fuel dev tr,
  match receive_and_echo_char fuel dev tr with
  | None => ~ (ready_within fuel 21 dev /\ ready_within fuel 23 dev)
  | Some tr' => exists d acc1 acc2, tr' = tr ++ acc1 ++ acc2 /\ receives d acc1 /\ sends [d mod 256; 10; 13] acc2
  end.
Proof.
  intros fuel dev tr. unfold receive_and_echo_char, receive_char.
  destruct (wait_stat fuel dev RDRF_MASK RDRF_SHIFT tr) as [t|] eqn:W.
  2:{ intros [R _]. destruct (R tr) as (k & K & T).
      destruct (wait_ends k fuel dev RDRF_MASK RDRF_SHIFT 21 tr rdrf_bit K T) as (x & X). congruence. }
  apply (wait_spec _ _ _ _ 21) in W; [|exact rdrf_bit]. destruct W as (busy & v & B & V & ->).
  set (t0 := tr ++ map RdStat busy ++ [RdStat v]). set (d := dev t0 false).
  assert (NE : forall t c, transmit_char fuel dev t c = None -> ~ (ready_within fuel 21 dev /\ ready_within fuel 23 dev)).
  { intros t c E [_ R]. destruct (transmit_char_ends fuel dev t c R) as (x & X). congruence. }
  destruct (transmit_char fuel dev (t0 ++ [RdData d]) (d mod 256)) as [t1|] eqn:E1; [|eauto].
  destruct (transmit_char fuel dev t1 10) as [t2|] eqn:E2; [|eauto].
  destruct (transmit_char fuel dev t2 13) as [t3|] eqn:E3; [|eauto].
  apply transmit_char_spec in E1, E2, E3.
  destruct E1 as (b1 & v1 & B1 & V1 & ->). destruct E2 as (b2 & v2 & B2 & V2 & ->). destruct E3 as (b3 & v3 & B3 & V3 & ->).
  exists d, (map RdStat busy ++ [RdStat v; RdData d]),
    ((map RdStat b1 ++ [RdStat v1; WrData (d mod 256)]) ++ (map RdStat b2 ++ [RdStat v2; WrData 10]) ++ (map RdStat b3 ++ [RdStat v3; WrData 13])).
  split; [unfold t0; rewrite <- !app_assoc; reflexivity|]. split; [exists busy, v; auto|].
  change [d mod 256; 10; 13] with ([d mod 256] ++ [10] ++ [13]). repeat apply sends_app; now apply sends_one.
Qed.

Lemma sys_write_spec : forall fuel dev tr fd buf count,
  match sys_write fuel dev tr fd buf count with
  | None => ~ ready_within fuel 23 dev
  | Some UB => exists data, buf = Some data /\ (length data < count)%nat
  | Some (Ret (r, e, tr')) =>
      ((buf = None \/ count = 0%nat) /\ r = -1 /\ e = Some EINVAL /\ tr' = tr) \/
      (exists data acc, buf = Some data /\ (0 < count <= length data)%nat /\ r = 0 /\ e = None /\
         tr' = tr ++ acc /\ sends (firstn count data) acc)
  end.
Proof.
  intros fuel dev tr fd buf count. unfold sys_write. destruct buf as [data|]; [|left; auto].
  destruct (Nat.eqb_spec count 0) as [->|N]; [left; auto|].
  assert (H := transmit_len_spec count fuel dev tr data).
  destruct (transmit_string_len _ _ _ _ _) as [[tr'|]|]; auto.
  - destruct H as (L & acc & -> & SN). right. exists data, acc. repeat split; auto; lia.
  - eauto.
Qed.

Lemma getcwd_spec : forall buf size,
  (forall b, buf = Some b -> (size <= length b)%nat) ->
  exists ok e buf', sys_getcwd buf size = Ret (ok, e, buf') /\
    (ok = true <-> buf <> None /\ (2 <= size)%nat) /\
    (ok = false -> e = Some EINVAL /\ buf' = buf) /\
    (ok = true -> e = None /\ exists b b', buf = Some b /\ buf' = Some b' /\ length b' = length b /\
       firstn 2 b' = [47; 0] /\ skipn 2 b' = skipn 2 b).
Proof.
  intros buf size H. unfold sys_getcwd. destruct buf as [b|].
  - specialize (H b eq_refl). destruct (Nat.leb_spec size 1).
    + do 3 eexists. split; [reflexivity|]. split; [split; [discriminate|lia]|]. split; [auto|discriminate].
    + destruct b as [|x [|y b]]; cbn [length] in H; try lia. do 3 eexists. split; [reflexivity|].
      split; [split; [intros _; split; [discriminate|lia]|reflexivity]|]. split; [discriminate|]. intros _. split; auto.
      exists (x :: y :: b), (47 :: 0 :: b). auto.
  - do 3 eexists. split; [reflexivity|]. split; [split; [discriminate|tauto]|]. split; [auto|discriminate].
Qed.

(** ** Start-up *)
Lemma copy_words_spec : forall todo n dst src m,
  apart (src + 4 * n) (4 * Z.of_nat todo) (dst + 4 * n) (4 * Z.of_nat todo) ->
  forall x, copy_words todo n dst src m x =
    if (dst + 4 * n <=? x) && (x <? dst + 4 * n + 4 * Z.of_nat todo) then m (src + (x - dst)) else m x.
Proof.
  induction todo as [|k IH]; intros n dst src m A x; cbn [copy_words].
  - destruct (Z.leb_spec (dst + 4 * n) x); destruct (Z.ltb_spec x (dst + 4 * n + 4 * Z.of_nat 0)); cbn [andb]; auto. lia.
  - unfold apart, within in A. rewrite IH.
    2:{ unfold apart, within. intros y. specialize (A y). lia. }
    unfold store1.
    destruct (Z.leb_spec (dst + 4 * n) x); destruct (Z.ltb_spec x (dst + 4 * n + 4 * Z.of_nat (S k))); cbn [andb];
    destruct (Z.leb_spec (dst + 4 * (n + 1)) x); destruct (Z.ltb_spec x (dst + 4 * (n + 1) + 4 * Z.of_nat k)); cbn [andb]; try lia.
    + assert (NI : src + (x - dst) < dst + 4 * n \/ dst + 4 * n + 4 <= src + (x - dst)).
      { assert (Q := A (src + (x - dst))). lia. }
      repeat match goal with |- context [?a =? ?b] => destruct (Z.eqb_spec a b); [lia|] end. reflexivity.
    + repeat match goal with |- context [?a =? ?b] => destruct (Z.eqb_spec a b) end; try lia; f_equal; lia.
    + repeat match goal with |- context [?a =? ?b] => destruct (Z.eqb_spec a b); [lia|] end. reflexivity.
    + repeat match goal with |- context [?a =? ?b] => destruct (Z.eqb_spec a b); [lia|] end. reflexivity.
Qed.

Lemma copy_until_spec : forall k fuel dst src m, (k < fuel)%nat -> 0 <= src -> src + Z.of_nat k < 2 ^ 32 -> 0 <= dst -> dst + Z.of_nat k <= 2 ^ 32 ->
  apart src (Z.of_nat k) dst (Z.of_nat k) ->
  exists m', copy_until fuel dst src (src + Z.of_nat k) m = Some m' /\
    forall x, m' x = if (dst <=? x) && (x <? dst + Z.of_nat k) then m (src + (x - dst)) else m x.
Proof.
  induction k as [|k IH]; intros fuel dst src m F S0 S1 D0 D1 A; (destruct fuel as [|fuel]; [lia|]); cbn [copy_until].
  - replace (src + Z.of_nat 0) with src by lia. rewrite Z.eqb_refl. exists m. split; auto. intros x.
    destruct (Z.leb_spec dst x); destruct (Z.ltb_spec x (dst + Z.of_nat 0)); cbn [andb]; auto. lia.
  - destruct (Z.eqb_spec (src + Z.of_nat (S k)) src); [lia|]. rewrite (Z.mod_small (src + 1)) by lia.
    unfold apart, within in A.
    destruct k as [|k].
    + destruct fuel as [|fuel]; [lia|]. cbn [copy_until]. replace (src + Z.of_nat 1) with (src + 1) by lia. rewrite Z.eqb_refl.
      eexists. split; [reflexivity|]. intros x. unfold store1.
      destruct (Z.leb_spec dst x); destruct (Z.ltb_spec x (dst + Z.of_nat 1)); cbn [andb]; destruct (Z.eqb_spec x dst); try lia; auto.
      f_equal. lia.
    + rewrite (Z.mod_small (dst + 1)) by lia.
      destruct (IH fuel (dst + 1) (src + 1) (store1 m dst (m src))) as (m' & E & H); try lia.
      { unfold apart, within. intros y. specialize (A y). lia. }
      replace (src + Z.of_nat (S (S k))) with (src + 1 + Z.of_nat (S k)) by lia. exists m'. split; [exact E|].
      intros x. rewrite H. unfold store1.
      destruct (Z.leb_spec dst x); destruct (Z.ltb_spec x (dst + Z.of_nat (S (S k)))); cbn [andb];
      destruct (Z.leb_spec (dst + 1) x); destruct (Z.ltb_spec x (dst + 1 + Z.of_nat (S k))); cbn [andb]; try lia.
      * destruct (Z.eqb_spec (src + 1 + (x - (dst + 1))) dst) as [Q|Q]; [|f_equal; lia].
        exfalso. apply (A dst); lia.
      * destruct (Z.eqb_spec x dst); [|lia]. f_equal. lia.
      * destruct (Z.eqb_spec x dst); [lia|]. reflexivity.
      * destruct (Z.eqb_spec x dst); [lia|]. reflexivity.
Qed.

Lemma clear_until_spec : forall k fuel start m, (k < fuel)%nat -> 0 <= start -> start + Z.of_nat k < 2 ^ 32 ->
  exists m', clear_until fuel start (start + Z.of_nat k) m = Some m' /\
    forall x, m' x = if (start <=? x) && (x <? start + Z.of_nat k) then 0 else m x.
Proof.
  induction k as [|k IH]; intros fuel start m F S0 S1; (destruct fuel as [|fuel]; [lia|]); cbn [clear_until].
  - replace (start + Z.of_nat 0) with start by lia. rewrite Z.eqb_refl. exists m. split; auto. intros x.
    destruct (Z.leb_spec start x); destruct (Z.ltb_spec x start); cbn [andb]; try lia; auto.
  - destruct (Z.eqb_spec (start + Z.of_nat (S k)) start); [lia|]. rewrite (Z.mod_small (start + 1)) by lia.
    destruct (IH fuel (start + 1) (store1 m start 0)) as (m' & E & H); try lia.
    replace (start + Z.of_nat (S k)) with (start + 1 + Z.of_nat k) by lia. exists m'. split; [exact E|].
    intros x. rewrite H. unfold store1.
    destruct (Z.leb_spec start x); destruct (Z.ltb_spec x (start + 1 + Z.of_nat k)); cbn [andb];
    destruct (Z.leb_spec (start + 1) x); cbn [andb]; destruct (Z.eqb_spec x start); try lia; auto.
Qed.

Lemma init_spec : forall L m fuel, sound_layout L ->
  data_len L < Z.of_nat fuel -> code_len L < Z.of_nat fuel -> bss_len L < Z.of_nat fuel ->
  exists m' vtor, init_data_bss fuel L m = Some (m', vtor) /\ vtor = vector_ram L /\ initialised L m m'.
Proof.
  intros L m fuel [] F1 F2 F3. unfold init_data_bss.
  set (m0 := if negb (vector_ram L =? vector_table L)
    then (copy_words (Z.to_nat (vector_size L / 4)) 0 (vector_ram L) (vector_table L) m, vector_ram L)
    else (m, vector_table L)).
  assert (M0 : snd m0 = vector_ram L /\ forall x, fst m0 x =
    if (vector_ram L <=? x) && (x <? vector_ram L + vector_len L) then m (vector_table L + (x - vector_ram L)) else m x).
  { unfold m0, vector_len in *. destruct (Z.eqb_spec (vector_ram L) (vector_table L)) as [E|E]; cbn [negb fst snd].
    - split; [congruence|]. intros x. destruct (Z.leb_spec (vector_ram L) x); destruct (Z.ltb_spec x (vector_ram L + 0)); cbn [andb]; auto; lia.
    - split; [reflexivity|]. assert (0 <= vector_size L / 4) by (apply Z.div_pos; lia).
      intros x. rewrite copy_words_spec.
      + rewrite Z2Nat.id by lia. replace (vector_ram L + 4 * 0) with (vector_ram L) by lia. reflexivity.
      + rewrite Z2Nat.id by lia. unfold apart, within in *. intros y. specialize (sl_vv y). lia. }
  destruct m0 as [m1 vtor]. cbn [fst snd] in M0. destruct M0 as [-> M1].
  destruct (copy_until_spec (Z.to_nat (data_len L)) fuel (data_ram L) (data_rom L) m1) as (m2 & E2 & M2); try lia.
  { rewrite Z2Nat.id by lia. unfold data_len in *. lia. }
  { rewrite Z2Nat.id by lia. exact sl_dd. }
  rewrite Z2Nat.id in E2, M2 by lia. replace (data_rom L + data_len L) with (data_rom_end L) in E2 by (unfold data_len; lia). rewrite E2.
  destruct (copy_until_spec (Z.to_nat (code_len L)) fuel (code_ram L) (code_rom L) m2) as (m3 & E3 & M3); try lia.
  { rewrite Z2Nat.id by lia. unfold code_len in *. lia. }
  { rewrite Z2Nat.id by lia. exact sl_cc. }
  rewrite Z2Nat.id in E3, M3 by lia. replace (code_rom L + code_len L) with (code_rom_end L) in E3 by (unfold code_len; lia). rewrite E3.
  destruct (clear_until_spec (Z.to_nat (bss_len L)) fuel (bss_start L) m3) as (m4 & E4 & M4); try lia.
  { rewrite Z2Nat.id by lia. unfold bss_len in *. lia. }
  rewrite Z2Nat.id in E4, M4 by lia. replace (bss_start L + bss_len L) with (bss_end L) in E4 by (unfold bss_len; lia). rewrite E4.
  exists m4, (vector_ram L). split; [reflexivity|]. split; [reflexivity|].
  assert (VL : 0 <= vector_len L).
  { unfold vector_len. destruct (_ =? _); [lia|]. assert (0 <= vector_size L / 4) by (apply Z.div_pos; lia). lia. }
  assert (IN : forall a n x (A B : Z), (a <= x < a + n -> A = B) -> forall C, (~ a <= x < a + n -> C = B) -> (if (a <=? x) && (x <? a + n) then A else C) = B).
  { intros a n x A B H C H'. destruct (Z.leb_spec a x); destruct (Z.ltb_spec x (a + n)); cbn [andb]; try (apply H; lia); apply H'; lia. }
  unfold apart, within in *.
  split; [|split; [|split; [|split]]].
  - intros i I. rewrite M4. apply IN; [intros Q; exfalso; eapply sl_rvb; [|exact Q]; lia|]. intros _.
    rewrite M3. apply IN; [intros Q; exfalso; eapply sl_rvc; [|exact Q]; lia|]. intros _.
    rewrite M2. apply IN; [intros Q; exfalso; eapply sl_rvd; [|exact Q]; lia|]. intros _.
    rewrite M1. apply IN; [intros _; f_equal; lia|]. lia.
  - intros i I. rewrite M4. apply IN; [intros Q; exfalso; eapply sl_rdb; [|exact Q]; lia|]. intros _.
    rewrite M3. apply IN; [intros Q; exfalso; eapply sl_rdc; [|exact Q]; lia|]. intros _.
    rewrite M2. apply IN; [|lia]. intros _. replace (data_rom L + (data_ram L + i - data_ram L)) with (data_rom L + i) by lia.
    rewrite M1. apply IN; [intros Q; exfalso; eapply sl_dv; [|exact Q]; lia|]. reflexivity.
  - intros i I. rewrite M4. apply IN; [intros Q; exfalso; eapply sl_rcb; [|exact Q]; lia|]. intros _.
    rewrite M3. apply IN; [|lia]. intros _. replace (code_rom L + (code_ram L + i - code_ram L)) with (code_rom L + i) by lia.
    rewrite M2. apply IN; [intros Q; exfalso; eapply sl_cd; [|exact Q]; lia|]. intros _.
    rewrite M1. apply IN; [intros Q; exfalso; eapply sl_cv; [|exact Q]; lia|]. reflexivity.
  - intros i I. rewrite M4. apply IN; [reflexivity|]. lia.
  - unfold within. intros x NV ND NC NB. rewrite M4. apply IN; [tauto|]. intros _. rewrite M3. apply IN; [tauto|]. intros _.
    rewrite M2. apply IN; [tauto|]. intros _. rewrite M1. apply IN; [tauto|]. reflexivity.
Qed.

Lemma transmit_hangs : forall fuel dev tr c, (forall t, Z.testbit (dev t true) 23 = false) -> transmit_char fuel dev tr c = None.
Proof.
  intros fuel dev tr c H. unfold transmit_char. rewrite (wait_hangs fuel dev TDRE_MASK TDRE_SHIFT 23); auto. exact tdre_bit.
Qed.

(** ** Histories of calls *)

Lemma call_spec : forall fuel dev c tr,
  match do_call fuel dev c tr with
  | None => ~ ready_within fuel 23 dev
  | Some UB => ~ honest c
  | Some (Ret (a, tr')) => (exists acc, tr' = tr ++ acc /\ sends (printed c) acc) /\
      (served c = true -> snd a = None /\ 0 <= fst a) /\ (served c = false -> reports_failure c a)
  end.
Proof.
  assert (Q : forall tr : list bus, exists acc, tr = tr ++ acc /\ sends [] acc).
  { intro tr. exists []. rewrite app_nil_r. split; [reflexivity|constructor]. }
  assert (F : forall r e c, r = (match c with C_getcwd _ _ => 0 | _ => -1 end) -> e = reason c -> reports_failure c (r, Some e))
    by (intros r e c E ->; split; [exact E|reflexivity]).
  intros fuel dev c tr. destruct c as [fd [data|] count|x|[b|] size|[tp|]| | |]; cbn [do_call sys_write sys_gettimeofday sys_getcwd].
  - destruct count as [|count]; cbn [Nat.eqb printed served firstn].
    + split; [apply Q|]. split; [discriminate|]. intros _. now apply F.
    + pose proof (transmit_len_spec (S count) fuel dev tr data) as T.
      destruct (transmit_string_len _ _ _ _ _) as [[tr'|]|]; [|cbn [honest]; lia|exact T]. destruct T as [L T].
      split; [exact T|]. split; [|discriminate]. intros _. split; [reflexivity|cbn; lia].
  - split; [apply Q|]. split; [discriminate|]. intros _. now apply F.
  - unfold sys_putchar. destruct (transmit_char fuel dev tr (x mod 256)) as [t|] eqn:E.
    + apply transmit_char_spec in E. destruct E as (busy & v & B & V & ->). split; [|split; [|discriminate]].
      * eexists. split; [reflexivity|]. now apply sends_one.
      * intros _. split; [reflexivity|cbn; lia].
    + intros R. destruct (transmit_char_ends fuel dev tr (x mod 256) R) as (t & T). congruence.
  - destruct size as [|[|size]]; cbn [Nat.leb served printed];
      try (split; [apply Q|]; split; [discriminate|]; intros _; now apply F).
    destruct b as [|b0 [|b1 b]]; cbn [honest length]; try lia.
    split; [apply Q|]. split; [|discriminate]. intros _. split; [reflexivity|cbn; lia].
  - split; [apply Q|]. split; [discriminate|]. intros _. now apply F.
  - split; [apply Q|]. split; [|discriminate]. intros _. split; [reflexivity|cbn; lia].
  - split; [apply Q|]. split; [discriminate|]. intros _. now apply F.
  - split; [apply Q|]. split; [discriminate|]. intros _. now apply F.
  - split; [apply Q|]. split; [discriminate|]. intros _. now apply F.
  - split; [apply Q|]. split; [discriminate|]. intros _. now apply F.
Qed.

Lemma calls_spec : forall cs fuel dev tr, 
  match do_calls fuel dev cs tr with
  | None => ~ ready_within fuel 23 dev
  | Some UB => ~ Forall honest cs
  | Some (Ret (l, tr')) => (exists acc, tr' = tr ++ acc /\ sends (flat_map printed cs) acc) /\
      Forall2 (fun c a => (served c = true -> snd a = None /\ 0 <= fst a) /\ (served c = false -> reports_failure c a)) cs l
  end.
Proof.
  induction cs as [|c cs IH]; intros fuel dev tr; cbn [do_calls flat_map].
  - split; [|constructor]. exists []. rewrite app_nil_r. split; [reflexivity|constructor].
  - pose proof (call_spec fuel dev c tr) as C. destruct (do_call fuel dev c tr) as [[[a t]|]|].
    + destruct C as [(acc & -> & SN) C]. specialize (IH fuel dev (tr ++ acc)).
      destruct (do_calls fuel dev cs (tr ++ acc)) as [[[l t]|]|]; [|intros H; apply IH; now inversion H|exact IH].
      destruct IH as [(acc' & -> & SN') IH]. split; [|now constructor].
      exists (acc ++ acc'). split; [now rewrite app_assoc|now apply sends_app].
    + intros H. apply C. now inversion H.
    + exact C.
Qed.
