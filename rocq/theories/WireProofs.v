(** Proofs for Props_Wire.v. *)
From Coq Require Import ZArith Bool String List Lia.
From Verif Require Import Outcome ResultModel CanFrameModel CanFrameSpec CanFrameProofs SocketCanModel SocketCanSpec SocketCanProofs
  SocketCanHist GroupModel GroupSpec GroupProofs ManagerModel WireSpec.
Import ListNotations.
Open Scope Z_scope.

(** ** The number of filters *)
Lemma takes_iff : forall ans, linux_takes ans -> forall fd cs n log, (n <= length cs)%nat -> Z.of_nat n < 2 ^ 29 ->
  (Z.of_nat n <= getMaxFrameFilters -> exists log', configureFilters ans fd (Some cs) n log = Ret (Success, log')) /\
  (getMaxFrameFilters < Z.of_nat n -> configureFilters ans fd (Some cs) n log = Ret (UnknownInternalError, log)).
Proof.
  intros ans T fd cs n log L N. unfold getMaxFrameFilters. destruct n as [|n].
  - rewrite configure_zero. assert (A : ans [] 0 = 0) by (apply T; split; [reflexivity|lia]). rewrite A. cbn [Z.eqb].
    split; intros H; [eexists; reflexivity|lia].
  - rewrite configure_eq by lia. cbv zeta. set (fs := map kconv (firstn (S n) cs)). set (ol := (8 * Z.of_nat (S n)) mod 2 ^ 32).
    assert (O : ol = 8 * Z.of_nat (S n)) by (unfold ol; apply Z.mod_small; lia).
    assert (A : ans fs ol = 0 <-> Z.of_nat (S n) <= 512).
    { rewrite (T fs ol). rewrite O. split; [intros [_ ?]; lia|]. intros ?. split; [|lia]. rewrite Z.mul_comm. apply Z.mod_mul. lia. }
    destruct (Z.eqb_spec (ans fs ol) 0) as [E|E].
    + apply A in E. split; intros H; [eexists; reflexivity|lia].
    + split; intros H; [|reflexivity]. exfalso. apply E. apply A. auto.
Qed.

Lemma group_takes : forall g ans cs n log, (1 <= length g <= 255)%nat -> NoDup (descriptors g) -> (forall t, linux_takes (ans t)) ->
  (n <= length cs)%nat -> Z.of_nat n < 2 ^ 29 ->
  exists r log', (forall fuel, (length g < fuel)%nat -> reconfigureFilters fuel g ans (Some cs) n log = Some (Ret (r, log'))) /\
    (isSuccess r = true <-> Z.of_nat n <= getMaxFrameFilters).
Proof.
  intros g ans cs n log LG ND T L N.
  destruct (reconfigure_spec g ans cs n log ltac:(lia) L N ND) as [r [log' [j [E [J [A [B _]]]]]]].
  exists r, log'. split; auto. destruct B as [[-> ->]|[s [Es [F R]]]].
  - split; [|reflexivity]. intros _. destruct (nth_error g 0) as [s|] eqn:E0; [|apply nth_error_None in E0; lia].
    destruct (A 0%nat s log E0 ltac:(lia)) as [lg C].
    destruct (Z.le_gt_cases (Z.of_nat n) getMaxFrameFilters) as [|G]; auto.
    destruct (takes_iff (ans 0%nat) (T 0%nat) (getSocketDescriptor s) cs n log L N) as [_ D].
    specialize (D ltac:(lia)). rewrite C in D. discriminate.
  - split; intros H.
    + exfalso. unfold isSuccess, isFailure in *. rewrite F in H. discriminate.
    + exfalso. destruct (takes_iff (ans j) (T j) (getSocketDescriptor s) cs n log L N) as [D _].
      destruct (D H) as [lg D']. rewrite R in D'. injection D' as D1 _. subst r. discriminate.
Qed.

(** ** What is handed to the kernel *)
Lemma sent_is : forall k s fs n w sent, iface_typed s -> frames_typed fs -> (1 <= n <= 4)%nat ->
  write k s fs n = Ret w -> wr_sent w = Some sent -> sent = firstn n (buf_after s fs n).
Proof.
  intros k s fs n w sent TS TF Hn H HS. rewrite write_eq in H by auto.
  destruct (k (firstn n (buf_after s fs n))) as [res e].
  destruct (res <=? 0); [|destruct (res <? Z.of_nat n)]; inversion H; subst w; simpl in HS; congruence.
Qed.

Lemma read_slot : forall res errno msgs s out r i m, iface_typed s -> frames_typed out -> recv_ok res msgs -> 0 < res ->
  read res errno msgs s out = Ret r -> nth_error msgs i = Some m ->
  exists c, nth_error (if_buf s) i = Some c /\ nth_error (if_buf (rd_if r)) i = Some (receive_into m c).
Proof.
  intros res errno msgs s out r i m TS TO RO P HR Hm. rewrite read_eq in HR by auto.
  destruct (Z.leb_spec res 0); [lia|]. inversion HR. cbn [rd_if if_buf]. destruct TS as [LB _]. destruct RO as [R4 [_ EQ]].
  specialize (EQ P). assert (L : (length msgs <= length (if_buf s))%nat) by lia. clear -Hm L.
  revert msgs Hm L. generalize (if_buf s). induction i; intros buf [|m0 msgs] Hm L; simpl in *; try discriminate.
  - destruct buf as [|c buf]; [simpl in L; lia|]. inversion Hm; subst. exists c. auto.
  - destruct buf as [|c buf]; [simpl in L; lia|]. simpl in *. apply IHi; auto. lia.
Qed.

Lemma nth_skipn : forall A (l : list A) n i d, nth i (skipn n l) d = nth (n + i) l d.
Proof. induction l; intros [|n] i d; simpl; auto; destruct i; auto. Qed.

Lemma filled_beyond : forall f c j, frame_typed 64 f -> length (cf_data c) = 64%nat -> getDataLength f <= Z.of_nat j ->
  nth j (cf_data (filled f c)) 0 = nth j (cf_data c) 0.
Proof.
  intros f c j F LC H. unfold filled. cbn [cf_data]. pose proof (payload_length f F) as PL.
  assert (B : 0 <= getDataLength f <= 64) by (destruct F as [_ [F0 _]]; apply dlcToLength_bound; auto).
  rewrite app_nth2 by lia. rewrite nth_skipn. f_equal. lia.
Qed.

Lemma received_resent : forall res errno msgs s out r k fs n w sent i f m c,
  iface_typed s -> frames_typed out -> recv_ok res msgs -> 0 < res -> read res errno msgs s out = Ret r ->
  frames_typed fs -> (1 <= n <= 4)%nat -> write k (rd_if r) fs n = Ret w -> wr_sent w = Some sent ->
  (i < n)%nat -> nth_error fs i = Some f -> nth_error msgs i = Some m -> nth_error sent i = Some c ->
  forall j, getDataLength f <= Z.of_nat j -> (j < length (km_bytes m))%nat -> nth j (cf_data c) 0 = nth j (km_bytes m) 0.
Proof.
  intros res errno msgs s out r k fs n w sent i f m c TS TO RO P HR TF Hn HW HS Hi Hf Hm Hc j Hj Hb.
  destruct (read_slot _ _ _ _ _ _ _ _ TS TO RO P HR Hm) as [c0 [E0 E1]].
  destruct (read_typed res errno msgs s out TS TO RO) as [r' [HR' [TR _]]]. assert (r' = r) by congruence. subst r'.
  rewrite (sent_is k (rd_if r) fs n w sent TR TF Hn HW HS) in Hc.
  destruct (write_sent (rd_if r) fs n i f TR TF Hn Hi Hf) as [c1 [EB EC]]. rewrite EC in Hc. inversion Hc; subst c.
  assert (c1 = receive_into m c0) by congruence. subst c1.
  destruct TR as [_ [TB _]]. eapply Forall_forall in TB; [|eapply nth_error_In; exact E1].
  destruct TF as [_ FF]. eapply Forall_forall in FF; [|eapply nth_error_In; exact Hf].
  rewrite filled_beyond; try apply FF; auto; [|apply TB].
  unfold receive_into. cbn [cf_data]. apply app_nth1. auto.
Qed.

Lemma sent_history_free : forall k1 k2 s1 s2 fs n w1 w2 sent1 sent2 i f c1 c2,
  iface_typed s1 -> iface_typed s2 -> frames_typed fs -> (1 <= n <= 4)%nat ->
  write k1 s1 fs n = Ret w1 -> write k2 s2 fs n = Ret w2 -> wr_sent w1 = Some sent1 -> wr_sent w2 = Some sent2 ->
  (i < n)%nat -> nth_error fs i = Some f -> nth_error sent1 i = Some c1 -> nth_error sent2 i = Some c2 ->
  cf_id c1 = cf_id c2 /\ cf_len c1 = cf_len c2 /\
  (forall j, Z.of_nat j < getDataLength f -> nth j (cf_data c1) 0 = nth j (cf_data c2) 0) /\
  (getDataLength f = 64 -> c1 = c2).
Proof.
  intros k1 k2 s1 s2 fs n w1 w2 sent1 sent2 i f c1 c2 T1 T2 TF Hn W1 W2 S1 S2 Hi Hf H1 H2.
  rewrite (sent_is k1 s1 fs n w1 sent1 T1 TF Hn W1 S1) in H1. rewrite (sent_is k2 s2 fs n w2 sent2 T2 TF Hn W2 S2) in H2.
  destruct (write_sent s1 fs n i f T1 TF Hn Hi Hf) as [o1 [B1 E1]]. destruct (write_sent s2 fs n i f T2 TF Hn Hi Hf) as [o2 [B2 E2]].
  rewrite E1 in H1. rewrite E2 in H2. inversion H1; inversion H2; subst c1 c2. clear H1 H2.
  destruct TF as [_ FF]. eapply Forall_forall in FF; [|eapply nth_error_In; exact Hf]. destruct FF as [F _].
  destruct T1 as [_ [TB1 _]]. eapply Forall_forall in TB1; [|eapply nth_error_In; exact B1].
  destruct T2 as [_ [TB2 _]]. eapply Forall_forall in TB2; [|eapply nth_error_In; exact B2].
  destruct TB1 as [_ [_ L1]]. destruct TB2 as [_ [_ L2]].
  pose proof (payload_length f F) as PL.
  split; [reflexivity|]. split; [reflexivity|]. split.
  - intros j Hj. unfold filled. cbn [cf_data]. rewrite !app_nth1 by lia. reflexivity.
  - intros H. unfold filled. rewrite H. rewrite !skipn_all2 by (change (Z.to_nat 64) with 64%nat; lia). reflexivity.
Qed.

(** The bytes behind the payload of a message are those of the message sent before in the same position. *)
Lemma sent_resent : forall k1 k2 s fs1 n1 fs2 n2 w1 w2 sent1 sent2 i f c1 c2,
  iface_typed s -> frames_typed fs1 -> frames_typed fs2 -> (1 <= n1 <= 4)%nat -> (1 <= n2 <= 4)%nat ->
  write k1 s fs1 n1 = Ret w1 -> wr_sent w1 = Some sent1 -> write k2 (wr_if w1) fs2 n2 = Ret w2 -> wr_sent w2 = Some sent2 ->
  nth_error fs2 i = Some f -> nth_error sent1 i = Some c1 -> nth_error sent2 i = Some c2 ->
  forall j, getDataLength f <= Z.of_nat j -> nth j (cf_data c2) 0 = nth j (cf_data c1) 0.
Proof.
  intros k1 k2 s fs1 n1 fs2 n2 w1 w2 sent1 sent2 i f c1 c2 TS TF1 TF2 H1 H2 W1 S1 W2 S2 Hf C1 C2 j Hj.
  destruct (write_typed k1 s fs1 n1 TS TF1 ltac:(lia)) as [w [E TW]]. assert (w = w1) by congruence. subst w.
  assert (B : if_buf (wr_if w1) = buf_after s fs1 n1).
  { rewrite write_eq in W1 by auto. destruct (k1 (firstn n1 (buf_after s fs1 n1))) as [res e].
    destruct (res <=? 0); [|destruct (res <? Z.of_nat n1)]; inversion W1; reflexivity. }
  rewrite (sent_is k1 s fs1 n1 w1 sent1 TS TF1 H1 W1 S1) in C1. rewrite (sent_is k2 (wr_if w1) fs2 n2 w2 sent2 TW TF2 H2 W2 S2) in C2.
  assert (Hi : (i < n2)%nat).
  { assert (L : (i < length (firstn n2 (buf_after (wr_if w1) fs2 n2)))%nat) by (apply nth_error_Some; congruence).
    rewrite firstn_length in L. lia. }
  destruct (write_sent (wr_if w1) fs2 n2 i f TW TF2 H2 Hi Hf) as [o [EO EC]]. rewrite EC in C2. inversion C2; subst c2.
  rewrite B in EO.
  assert (o = c1).
  { assert (Hi1 : (i < n1)%nat).
    { assert (L : (i < length (firstn n1 (buf_after s fs1 n1)))%nat) by (apply nth_error_Some; congruence).
      rewrite firstn_length in L. lia. }
    rewrite <- (firstn_skipn n1 (buf_after s fs1 n1)) in EO. rewrite nth_error_app1 in EO by (apply nth_error_Some; congruence).
    congruence. }
  subst o. destruct TW as [_ [TB _]]. rewrite B in TB. eapply Forall_forall in TB; [|eapply nth_error_In; exact EO].
  destruct TF2 as [_ FF]. eapply Forall_forall in FF; [|eapply nth_error_In; exact Hf].
  apply filled_beyond; try apply FF; auto. apply TB.
Qed.

(** ** What is received *)
Lemma whole_length : forall m, kmsg_typed m -> whole m -> (Z.to_nat (dlcToLength (km_len m)) <= length (km_bytes m))%nat.
Proof.
  intros m [_ [L _]] [[W S]|W]; rewrite W.
  - assert (dlcToLength (km_len m) = km_len m) by (apply dlc_is_length_iff; auto). lia.
  - pose proof (dlcToLength_bound (km_len m) ltac:(lia)). lia.
Qed.

Definition exact_frame (m : kmsg) : frame :=
  let n := Z.to_nat (dlcToLength (km_len m)) in
  Frame (km_id m) (firstn n (km_bytes m) ++ repeat 0 (64 - n)) (km_len m) (stamp m).

Lemma deliver_whole : forall m c, kmsg_typed m -> whole m -> deliver (m, c) = exact_frame m.
Proof.
  intros m c T W. pose proof (whole_length m T W) as L. unfold deliver, exact_frame, receive_into. cbn [cf_data].
  rewrite firstn_app. replace (Z.to_nat (dlcToLength (km_len m)) - length (km_bytes m))%nat with 0%nat by lia.
  cbn [firstn]. rewrite app_nil_r. reflexivity.
Qed.

Lemma read_whole : forall res errno msgs s out, iface_typed s -> frames_typed out -> recv_ok res msgs -> 0 < res ->
  Forall whole msgs ->
  exists r, read res errno msgs s out = Ret r /\
    firstn (rd_count r) (rd_frames r) =
    map exact_frame (List.filter (fun m => negb (is_error (km_id m)) && negb (identifier (km_id m) =? 0)) msgs).
Proof.
  intros res errno msgs s out TS TF RO P W. rewrite read_eq by auto. destruct (Z.leb_spec res 0); [lia|].
  eexists; split; [reflexivity|]. cbn [rd_count rd_frames]. rewrite firstn_app_exact by apply map_length.
  change (fun m => negb (is_error (km_id m)) && negb (identifier (km_id m) =? 0)) with (fun m => accepts (km_id m)).
  destruct TS as [LB _]. destruct RO as [R4 [TM EQ]]. specialize (EQ P).
  rewrite <- (accepted_map msgs (if_buf s)) by lia. rewrite map_map. apply map_ext_in. intros [m c] Hin.
  apply accepted_in in Hin. destruct Hin as [Hin _]. cbn [fst].
  apply deliver_whole; [eapply Forall_forall in TM|eapply Forall_forall in W]; eauto.
Qed.

Lemma exact_frame_bytes : forall m, kmsg_typed m -> whole m ->
  payload (exact_frame m) = firstn (Z.to_nat (getDataLength (exact_frame m))) (km_bytes m) /\
  length (payload (exact_frame m)) = Z.to_nat (getDataLength (exact_frame m)) /\
  forall j, getDataLength (exact_frame m) <= Z.of_nat j -> nth j (fdata (exact_frame m)) 0 = 0.
Proof.
  intros m T W. pose proof (whole_length m T W) as L. unfold payload, exact_frame, getDataLength. cbn [fdata fdlc].
  set (n := Z.to_nat (dlcToLength (km_len m))) in *.
  assert (LF : length (firstn n (km_bytes m)) = n) by (rewrite firstn_length; lia).
  rewrite firstn_app_exact by auto. split; auto. split; auto.
  intros j Hj. rewrite app_nth2 by (rewrite LF; unfold n; lia). apply nth_repeat.
Qed.

Lemma read_only_own_bytes : forall res errno msgs s out, iface_typed s -> frames_typed out -> recv_ok res msgs -> 0 < res ->
  Forall whole msgs ->
  exists r, read res errno msgs s out = Ret r /\
    Forall2 (fun m f => payload f = firstn (Z.to_nat (getDataLength f)) (km_bytes m) /\
                        length (payload f) = Z.to_nat (getDataLength f) /\
                        forall j, getDataLength f <= Z.of_nat j -> nth j (fdata f) 0 = 0)
      (List.filter (fun m => negb (is_error (km_id m)) && negb (identifier (km_id m) =? 0)) msgs)
      (firstn (rd_count r) (rd_frames r)).
Proof.
  intros res errno msgs s out TS TF RO P W. destruct (read_whole res errno msgs s out TS TF RO P W) as [r [HR E]].
  exists r. split; auto. rewrite E. destruct RO as [_ [TM _]].
  induction msgs as [|m msgs IH]; [constructor|]. inversion TM; inversion W; subst. cbn [List.filter].
  assert (IH' : Forall2 (fun m f => payload f = firstn (Z.to_nat (getDataLength f)) (km_bytes m) /\
                        length (payload f) = Z.to_nat (getDataLength f) /\
                        forall j, getDataLength f <= Z.of_nat j -> nth j (fdata f) 0 = 0)
      (List.filter (fun m => negb (is_error (km_id m)) && negb (identifier (km_id m) =? 0)) msgs)
      (map exact_frame (List.filter (fun m => negb (is_error (km_id m)) && negb (identifier (km_id m) =? 0)) msgs))).
  { clear -H2 H6. induction msgs as [|m msgs IH]; [constructor|]. inversion H2; inversion H6; subst. cbn [List.filter].
    destruct (_ && _); [|auto]. cbn [map]. constructor; auto. apply exact_frame_bytes; auto. }
  destruct (_ && _); [|auto]. cbn [map]. constructor; auto. apply exact_frame_bytes; auto.
Qed.

Lemma read_history_free : forall res errno msgs s1 s2 out1 out2 r1 r2, iface_typed s1 -> iface_typed s2 -> frames_typed out1 -> frames_typed out2 ->
  recv_ok res msgs -> 0 < res -> Forall whole msgs ->
  read res errno msgs s1 out1 = Ret r1 -> read res errno msgs s2 out2 = Ret r2 ->
  firstn (rd_count r1) (rd_frames r1) = firstn (rd_count r2) (rd_frames r2).
Proof.
  intros res errno msgs s1 s2 out1 out2 r1 r2 T1 T2 F1 F2 RO P W E1 E2.
  destruct (read_whole res errno msgs s1 out1 T1 F1 RO P W) as [x [X1 X2]].
  destruct (read_whole res errno msgs s2 out2 T2 F2 RO P W) as [y [Y1 Y2]].
  assert (x = r1) by congruence. assert (y = r2) by congruence. subst. congruence.
Qed.

(** ** Over the bus *)
Lemma bus_length : forall len c, 0 <= len <= 15 -> valid_code c -> len <= iso_length c ->
  (forall d, valid_code d -> len <= iso_length d -> c <= d) ->
  iso_length c = if len <=? 8 then len else if len <=? 12 then 12 else 16.
Proof.
  intros len c L V G M. unfold valid_code in *. destruct (Z.leb_spec len 8).
  - assert (IL : iso_length len = len) by (unfold iso_length; destruct (Z.leb_spec len 8); lia).
    specialize (M len ltac:(lia) ltac:(lia)). unfold iso_length in *. destruct (Z.leb_spec c 8); lia.
  - destruct (Z.leb_spec len 12).
    + specialize (M 9 ltac:(lia) ltac:(cbn; lia)). unfold iso_length in *. destruct (Z.leb_spec c 8); [lia|].
      assert (c = 9) by lia. subst c. reflexivity.
    + specialize (M 10 ltac:(lia) ltac:(cbn; lia)). unfold iso_length in *. destruct (Z.leb_spec c 8); [lia|].
      assert (c = 9 \/ c = 10) as [->| ->] by lia; cbn in *; lia.
Qed.

Lemma iso_small : forall c, 0 <= c <= 8 -> iso_length c = c.
Proof. intros c H. unfold iso_length. destruct (Z.leb_spec c 8); lia. Qed.

Lemma bus_frame : forall f c k g, frame_typed 64 f -> fdlc f <= 15 -> canfd_typed c -> frame_typed 64 g ->
  carried (filled f c) k -> fid g = km_id k -> fdlc g = km_len k ->
  (forall i, Z.of_nat i < getDataLength g -> (i < length (km_bytes k))%nat -> nth i (fdata g) 0 = nth i (km_bytes k) 0) ->
  (frames_equal 0 g f <-> fdlc f <= 8 \/ (fdlc f = 12 /\ forall j, (12 <= j < 24)%nat -> nth j (fdata f) 0 = 0)).
Proof.
  intros f c k g F D C G [d [V [LE [MIN [KI [KL [KB [KD KZ]]]]]]]] HI HL HB.
  pose proof F as [LF [F0 _]].
  destruct (filled_wire f c F ltac:(lia)) as [_ [_ [_ [EI [EL EP]]]]]. rewrite EL in *.
  pose proof (bus_length (fdlc f) d ltac:(lia) V LE MIN) as BL. rewrite KL in HL.
  assert (IDS : forall b, compared_bit 0 b -> Z.testbit (fid g) b = Z.testbit (fid f) b).
  { intros b [K|[K T]]; [|rewrite Z.bits_0 in T; discriminate]. apply identifier_bits; auto. congruence. }
  assert (LP : forall i, Z.of_nat i < getDataLength f -> nth i (cf_data (filled f c)) 0 = nth i (fdata f) 0).
  { intros i Hi. rewrite <- (nth_firstn_lt _ (cf_data (filled f c)) (Z.to_nat (getDataLength f)) i 0) by lia.
    rewrite EP. unfold payload. apply nth_firstn_lt. lia. }
  pose proof (code_le_length (fdlc f) ltac:(lia)) as CL. fold (getDataLength f) in CL.
  assert (GB : forall i, Z.of_nat i < getDataLength g -> nth i (fdata g) 0 = nth i (km_bytes k) 0).
  { intros i Hi. apply HB; auto. rewrite KB. destruct G as [_ [GD0 _]]. pose proof (dlcToLength_bound (fdlc g) GD0).
    unfold getDataLength in Hi. lia. }
  split.
  - intros [_ [E B]]. rewrite HL in E. destruct (Z.leb_spec (fdlc f) 8); [auto|]. right.
    destruct (Z.leb_spec (fdlc f) 12); [|lia]. assert (E12 : fdlc f = 12) by lia. split; auto.
    intros j Hj. assert (GD : getDataLength g = 24) by (unfold getDataLength; rewrite HL, BL; reflexivity).
    rewrite <- B by lia. rewrite GB by lia. apply KZ. lia.
  - intros H. assert (GF : fdlc g = fdlc f).
    { rewrite HL, BL. destruct (Z.leb_spec (fdlc f) 8); [auto|]. destruct (Z.leb_spec (fdlc f) 12); lia. }
    split; [exact IDS|]. split; [exact GF|]. intros i Hi.
    assert (GD : getDataLength g = getDataLength f) by (unfold getDataLength; congruence).
    rewrite GB by auto. destruct (Z_lt_ge_dec (Z.of_nat i) (fdlc f)) as [Hlt|Hge].
    + rewrite KD by auto. apply LP. lia.
    + destruct H as [H|[H Z0]].
      * assert (getDataLength f = fdlc f) by (apply dlc_is_length_iff; lia). lia.
      * assert (GD24 : getDataLength f = 24) by (unfold getDataLength; rewrite H; reflexivity).
        rewrite KZ by lia. symmetry. apply Z0. lia.
Qed.

Lemma carried_accept : forall fs buf ks n, Forall (fun f => frame_typed 64 f /\ fdlc f < 256) fs ->
  (forall i f, (i < n)%nat -> nth_error fs i = Some f -> identifier (fid f) <> 0) -> (n <= length fs)%nat -> (n <= length buf)%nat ->
  Forall2 carried (firstn n (fill_all (firstn n fs) buf)) ks ->
  Forall (fun m => accepts (km_id m) = true) ks.
Proof.
  induction fs as [|f fs IH]; intros buf ks n F N L1 L2 H.
  - assert (n = 0)%nat by (simpl in L1; lia). subst. simpl in H. inversion H. constructor.
  - destruct n; [simpl in H; inversion H; constructor|]. destruct buf as [|c buf]; [simpl in L2; lia|].
    cbn [firstn fill_all] in H. inversion F; subst. inversion H; subst. constructor.
    + destruct H4 as [d [_ [_ [_ [KI _]]]]]. rewrite KI. apply filled_accept; try tauto. apply (N 0%nat f); [lia|reflexivity].
    + eapply IH; [| | | |exact H6]; simpl in *; auto; try lia. intros i g Hi Hg. apply (N (S i) g); [lia|auto].
Qed.

Lemma forall2_nth : forall A B (R : A -> B -> Prop) la lb i a b, Forall2 R la lb -> nth_error la i = Some a -> nth_error lb i = Some b -> R a b.
Proof.
  intros A B R la lb i a b F. revert i. induction F; intros [|i] H1 H2; simpl in *; try discriminate; [congruence|eauto].
Qed.

Lemma forall2_len : forall A B (R : A -> B -> Prop) la lb, Forall2 R la lb -> length la = length lb.
Proof. induction 1; simpl; auto. Qed.

Lemma over_the_bus : forall k s fs n w sent ks errno s2 out,
  iface_typed s -> frames_typed fs -> (1 <= n <= 4)%nat ->
  (forall i f, (i < n)%nat -> nth_error fs i = Some f -> identifier (fid f) <> 0 /\ fdlc f <= 15) ->
  write k s fs n = Ret w -> wr_sent w = Some sent ->
  Forall2 carried sent ks -> Forall kmsg_typed ks ->
  iface_typed s2 -> frames_typed out ->
  exists r, read (Z.of_nat n) errno ks s2 out = Ret r /\
    rd_result r = Success /\ rd_count r = n /\
    forall i f, (i < n)%nat -> nth_error fs i = Some f ->
    exists g, nth_error (rd_frames r) i = Some g /\
      (frame_eq 0 g f = Ret true <-> fdlc f <= 8 \/ (fdlc f = 12 /\ forall j, (12 <= j < 24)%nat -> nth j (fdata f) 0 = 0)).
Proof.
  intros k s fs n w sent ks errno s2 out TS TF Hn NZ HW HS CA TK TS2 TO.
  pose proof (sent_is k s fs n w sent TS TF Hn HW HS) as E.
  pose proof TS as [LB [TB _]]. pose proof TF as [LF FF].
  assert (LS : length sent = n) by (subst sent; apply sent_length; auto; lia).
  assert (LK : length ks = n) by (rewrite <- LS; symmetry; exact (forall2_len _ _ _ _ _ CA)).
  assert (RO : recv_ok (Z.of_nat n) ks) by (split; [lia|]; split; auto; intros _; lia).
  destruct (read_positive (Z.of_nat n) errno ks s2 out TS2 TO RO ltac:(lia)) as [r [HR [RS Q]]].
  exists r. split; auto. split; auto. cbv zeta in Q.
  assert (AC : List.filter (fun m => negb (is_error (km_id m)) && negb (identifier (km_id m) =? 0)) ks = ks).
  { apply filter_all. rewrite E in CA. apply (carried_accept fs (if_buf s) ks n); auto; try lia. intros i f Hi Hf. apply (NZ i f Hi Hf). }
  rewrite AC in Q. destruct Q as [QC [_ [QL [QF _]]]].
  assert (QN : rd_count r = n) by lia.
  split; auto. intros i f Hi Hf.
  destruct (write_sent s fs n i f TS TF Hn Hi Hf) as [c [EB ES]]. rewrite <- E in ES.
  destruct (nth_error ks i) as [m|] eqn:EM; [|apply nth_error_None in EM; lia].
  pose proof (forall2_nth _ _ _ _ _ _ _ _ CA ES EM) as CM.
  destruct (nth_error (rd_frames r) i) as [g|] eqn:EG; [|apply nth_error_None in EG; lia].
  exists g. split; auto.
  assert (DG : delivered_frame m g).
  { assert (EG' : nth_error (firstn (rd_count r) (rd_frames r)) i = Some g).
    { rewrite QN. rewrite <- (firstn_skipn n (rd_frames r)) in EG. rewrite nth_error_app1 in EG; auto.
      rewrite firstn_length. lia. }
    exact (forall2_nth _ _ _ _ _ _ _ _ QF EM EG'). }
  destruct (read_typed (Z.of_nat n) errno ks s2 out TS2 TO RO) as [r' [HR' [_ TR]]].
  assert (r' = r) by congruence. subst r'.
  assert (WG : frame_wf 64 g).
  { eapply Forall_forall; [apply delivered_typed_wf; exact TR|eapply nth_error_In; eauto]. }
  assert (WF : frame_wf 64 f).
  { eapply Forall_forall; [apply delivered_typed_wf; exact TF|eapply nth_error_In; eauto]. }
  rewrite (frame_eq_true 64) by auto.
  eapply Forall_forall in FF; [|eapply nth_error_In; eauto]. destruct FF as [F1 _].
  eapply Forall_forall in TB; [|eapply nth_error_In; eauto].
  destruct DG as [DI [_ [DL DB]]]. eapply bus_frame; eauto; [apply (NZ i f Hi Hf)|apply WG].
Qed.
