(** Proofs about whole runs of the SocketCAN interface: loopback, statistics, ancillary data. *)
From Coq Require Import ZArith Bool String List Lia.
From Verif Require Import Outcome ResultModel CanFrameModel CanFrameSpec CanFrameProofs PoolProofs SocketCanModel SocketCanSpec SocketCanProofs.
Import ListNotations.
Open Scope Z_scope.

(** ** Loopback *)
Lemma delivered_typed_wf : forall fs, frames_typed fs -> Forall (frame_wf 64) fs.
Proof.
  intros fs [_ F]. eapply Forall_impl; [|exact F]. simpl. intros f [T _]. split; auto.
  destruct T as [_ [D _]]. pose proof (dlcToLength_bound (fdlc f) D). unfold getDataLength. lia.
Qed.

Lemma identifier_bits : forall a b k, identifier a = identifier b -> 0 <= k < 29 -> Z.testbit a k = Z.testbit b k.
Proof.
  intros a b k H K. unfold identifier in H.
  rewrite <- (Z.mod_pow2_bits_low a 29 k), <- (Z.mod_pow2_bits_low b 29 k) by lia. congruence.
Qed.

Lemma filled_delivered_equal : forall f c cms cl g,
  frame_typed 64 f -> fdlc f < 256 -> length (cf_data c) = 64%nat -> frame_typed 64 g ->
  delivered_frame (looped (filled f c) cms cl) g -> frames_equal 0 g f.
Proof.
  intros f c cms cl g F D LC G [HI [_ [HL HB]]]. unfold looped in *. cbn [km_id km_len km_bytes] in *.
  destruct (filled_wire f c F D) as [_ [_ [_ [EI [EL EP]]]]].
  split; [|split].
  - intros k [K|[K T]]; [|rewrite Z.bits_0 in T; discriminate].
    apply identifier_bits; auto. congruence.
  - congruence.
  - intros i Hi. assert (GD : getDataLength g = getDataLength f) by (unfold getDataLength; congruence).
    rewrite HB; auto.
    + rewrite GD in Hi. rewrite <- (nth_firstn_lt _ (cf_data (filled f c)) (Z.to_nat (getDataLength f)) i 0) by lia.
      rewrite EP. unfold payload. apply nth_firstn_lt. lia.
    + assert (LF : length (cf_data (filled f c)) = 64%nat).
      { unfold filled; cbn [cf_data]. rewrite app_length, payload_length, skipn_length by auto.
        destruct F as [_ [FD _]]. pose proof (dlcToLength_bound (fdlc f) FD). unfold getDataLength. lia. }
      rewrite LF. destruct G as [_ [GD0 _]]. pose proof (dlcToLength_bound (fdlc g) GD0). unfold getDataLength in Hi. lia.
Qed.

Lemma zip_length : forall cs ex, length ex = length cs -> length (zip_looped cs ex) = length cs.
Proof. induction cs; intros [|e ex] H; simpl in *; auto; try discriminate. Qed.

Lemma fill_zip_accept : forall fs buf ex n, Forall (fun f => frame_typed 64 f /\ fdlc f < 256) fs ->
  (forall i f, (i < n)%nat -> nth_error fs i = Some f -> identifier (fid f) <> 0) -> (n <= length fs)%nat -> (n <= length buf)%nat ->
  Forall (fun m => accepts (km_id m) = true) (zip_looped (firstn n (fill_all (firstn n fs) buf)) ex).
Proof.
  induction fs as [|f fs IH]; intros buf ex n F N L1 L2.
  - assert (n = 0)%nat by (simpl in L1; lia). subst. simpl. constructor.
  - destruct n; [simpl; constructor|]. destruct buf as [|c buf]; [simpl in L2; lia|].
    cbn [firstn fill_all]. destruct ex as [|e ex]; [constructor|]. cbn [zip_looped]. inversion F; subst.
    constructor.
    + apply filled_accept; try tauto. apply (N 0%nat f); [lia|reflexivity].
    + apply IH; simpl in *; auto; try lia. intros i g Hi Hg. apply (N (S i) g); [lia|auto].
Qed.

Lemma filter_all : forall A (p : A -> bool) l, Forall (fun x => p x = true) l -> List.filter p l = l.
Proof. induction 1; simpl; auto. rewrite H, IHForall. auto. Qed.

Lemma zip_typed : forall cs ex, Forall canfd_typed cs ->
  Forall (fun e : list cmsg * Z => fst e <> [] -> 16 <= snd e) ex -> Forall kmsg_typed (zip_looped cs ex).
Proof.
  induction cs; intros [|e ex] C E; simpl; auto. inversion C; inversion E; subst. constructor; auto.
  destruct H1 as [? [? L]]. unfold kmsg_typed, looped; cbn [km_id km_len km_bytes km_cmsgs km_controllen].
  rewrite L. repeat split; auto; lia.
Qed.

Lemma loopback : forall k s fs n w sent ex errno s2 out,
  iface_typed s -> frames_typed fs -> (1 <= n <= 4)%nat ->
  (forall i f, (i < n)%nat -> nth_error fs i = Some f -> identifier (fid f) <> 0) ->
  write k s fs n = Ret w -> wr_sent w = Some sent ->
  length ex = n -> Forall (fun e : list cmsg * Z => fst e <> [] -> 16 <= snd e) ex ->
  iface_typed s2 -> frames_typed out ->
  exists r, read (Z.of_nat n) errno (zip_looped sent ex) s2 out = Ret r /\
    rd_result r = Success /\ rd_count r = n /\
    forall i f, (i < n)%nat -> nth_error fs i = Some f ->
    exists g, nth_error (rd_frames r) i = Some g /\ frame_eq 0 g f = Ret true.
Proof.
  intros k s fs n w sent ex errno s2 out TS TF Hn NZ HW HS LE TE TS2 TO.
  assert (E : sent = firstn n (buf_after s fs n)).
  { rewrite write_eq in HW by auto. destruct (k (firstn n (buf_after s fs n))) as [res e].
    destruct (res <=? 0); [|destruct (res <? Z.of_nat n)]; inversion HW; subst w; simpl in HS; congruence. }
  pose proof TS as [LB [TB _]]. pose proof TF as [LF FF].
  assert (LS : length sent = n) by (subst sent; apply sent_length; auto; lia).
  assert (TZ : Forall kmsg_typed (zip_looped sent ex)).
  { apply zip_typed; auto. subst sent. apply Forall_firstn. apply fill_all_typed; auto. apply Forall_firstn. apply frames_typed_each; auto. }
  assert (RO : recv_ok (Z.of_nat n) (zip_looped sent ex)).
  { split; [lia|]. split; auto. intros _. rewrite zip_length; lia. }
  destruct (read_positive (Z.of_nat n) errno (zip_looped sent ex) s2 out TS2 TO RO ltac:(lia)) as [r [HR [RS Q]]].
  exists r. split; auto. split; auto. cbv zeta in Q.
  assert (AC : List.filter (fun m => negb (is_error (km_id m)) && negb (identifier (km_id m) =? 0)) (zip_looped sent ex) = zip_looped sent ex).
  { apply filter_all. subst sent. apply fill_zip_accept; auto; lia. }
  rewrite AC in Q. destruct Q as [QC [_ [QL [QF _]]]].
  assert (QN : rd_count r = n) by (rewrite QC, zip_length; lia).
  split; auto. intros i f Hi Hf.
  destruct (write_sent s fs n i f TS TF Hn Hi Hf) as [c [EB ES]]. rewrite <- E in ES.
  destruct (nth_error ex i) as [e|] eqn:EE; [|apply nth_error_None in EE; lia].
  assert (EZ : nth_error (zip_looped sent ex) i = Some (looped (filled f c) (fst e) (snd e))).
  { clear -ES EE. revert ex i ES EE. induction sent; intros [|x ex] [|i] ES EE; simpl in *; try discriminate.
    - inversion ES; inversion EE; subst; auto.
    - auto. }
  destruct (nth_error (rd_frames r) i) as [g|] eqn:EG; [|apply nth_error_None in EG; lia].
  exists g. split; auto.
  assert (DG : delivered_frame (looped (filled f c) (fst e) (snd e)) g).
  { assert (EG' : nth_error (firstn (rd_count r) (rd_frames r)) i = Some g).
    { rewrite QN. rewrite <- (firstn_skipn n (rd_frames r)) in EG. rewrite nth_error_app1 in EG; auto.
      rewrite firstn_length. lia. }
    clear -QF EZ EG'. revert i EZ EG'. induction QF; intros [|i] EZ EG'; simpl in *; try discriminate.
    - congruence.
    - eauto. }
  destruct (read_typed (Z.of_nat n) errno (zip_looped sent ex) s2 out TS2 TO RO) as [r' [HR' [_ TR]]].
  assert (r' = r) by congruence. subst r'.
  assert (WG : frame_wf 64 g).
  { eapply Forall_forall; [apply delivered_typed_wf; exact TR|eapply nth_error_In; eauto]. }
  assert (WF : frame_wf 64 f).
  { eapply Forall_forall; [apply delivered_typed_wf; exact TF|eapply nth_error_In; eauto]. }
  apply (frame_eq_true 64); auto.
  eapply Forall_forall in FF; [|eapply nth_error_In; eauto]. destruct FF.
  eapply Forall_forall in TB; [|eapply nth_error_In; eauto].
  eapply filled_delivered_equal; eauto; [apply TB|apply WG].
Qed.

(** ** Statistics *)
Lemma stat_step_counter : forall e st m,
  counter e (stat_step st m) =
  if is_error (km_id m) && Z.testbit (km_id m) (class_bit e) then u64 (counter e st + 1) else counter e st.
Proof.
  intros e st m. unfold stat_step.
  destruct (is_error (km_id m)); [|destruct e; reflexivity].
  unfold count_error. destruct e; cbn [counter class_bit andb];
    cbn [err_tx_timeout err_lostarb err_crtl err_prot err_trx err_ack err_bussoff err_buserror err_restarted set_dropped];
    unfold bump; rewrite <- has_pow2 by lia; reflexivity.
Qed.

Lemma errors_cons : forall b m ms, errors_with b (m :: ms) =
  (if is_error (km_id m) && Z.testbit (km_id m) b then 1 else 0) + errors_with b ms.
Proof.
  intros. unfold errors_with. simpl. destruct (is_error (km_id m) && Z.testbit (km_id m) b); cbn [length]; lia.
Qed.
Lemma errors_app : forall b a c, errors_with b (a ++ c) = errors_with b a + errors_with b c.
Proof. induction a; intros; [reflexivity|]. cbn [app]. rewrite !errors_cons, IHa. lia. Qed.

Lemma stat_fold_counter : forall e ms st,
  u64 (counter e (fold_left stat_step ms st)) = u64 (counter e st + errors_with (class_bit e) ms).
Proof.
  induction ms; intros st; cbn [fold_left].
  - change (errors_with (class_bit e) []) with 0. f_equal. lia.
  - rewrite IHms, stat_step_counter, errors_cons.
    destruct (is_error (km_id a) && Z.testbit (km_id a) (class_bit e)); [|f_equal; lia].
    unfold u64. rewrite Z.add_mod_idemp_l by lia. f_equal. lia.
Qed.

Lemma stat_fold_range : forall e ms st, 0 <= counter e st < 2 ^ 64 -> 0 <= counter e (fold_left stat_step ms st) < 2 ^ 64.
Proof.
  induction ms; intros st H; cbn [fold_left]; auto. apply IHms. rewrite stat_step_counter.
  destruct (is_error (km_id a) && Z.testbit (km_id a) (class_bit e)); auto. apply Z.mod_pos_bound. lia.
Qed.

Lemma add_total_counter : forall e n st, counter e (add_total n st) = counter e st.
Proof. intros [] n st; reflexivity. Qed.


(** What one call does to the statistics. *)
Definition stats_inv (s : iface) (n : Z) (ms : list kmsg) : Prop :=
  rx_total (if_stats s) = u64 n /\ forall e, counter e (if_stats s) = u64 (errors_with (class_bit e) ms).

Lemma stats_call : forall c s n ms, iface_typed s -> call_ok c -> stats_inv s n ms ->
  exists r s', do_call c s = Ret (r, s') /\ iface_typed s' /\ stats_inv s' (n + delivered [r]) (ms ++ received [c]).
Proof.
  intros c s n ms TS CO [IT IC]. destruct c as [k fs m|res errno msgs out]; cbn [call_ok do_call] in *.
  - destruct CO as [_ [TF Hm]]. destruct (write_typed k s fs m TS TF Hm) as [w [HW TW]].
    rewrite HW. cbn [bind]. exists (RepWrite w), (wr_if w). split; auto. split; auto.
    destruct (write_keeps _ _ _ _ _ HW) as [ES _]. unfold stats_inv. rewrite ES.
    cbn [delivered received]. rewrite Z.add_0_r, app_nil_r. auto.
  - destruct CO as [RO TF]. destruct (read_typed res errno msgs s out TS TF RO) as [r [HR [TR _]]].
    rewrite HR. cbn [bind]. exists (RepRead r), (rd_if r). split; auto. split; auto.
    rewrite read_eq in HR by auto. inversion HR; clear HR. cbn [delivered received].
    destruct (Z.leb_spec res 0).
    + destruct (Z.ltb_spec 0 res); [lia|]. cbn [rd_if rd_count app]. unfold stats_inv.
      rewrite app_nil_r. replace (n + (Z.of_nat 0 + 0)) with n by lia. auto.
    + destruct (Z.ltb_spec 0 res); [|lia]. cbn [rd_if rd_count]. rewrite app_nil_r. unfold stats_inv. cbn [if_stats].
      split.
      * cbn [add_total rx_total]. rewrite stat_step_total, IT. unfold u64. rewrite Z.add_mod_idemp_l by lia. f_equal. lia.
      * intros e. rewrite add_total_counter.
        assert (RG : 0 <= counter e (if_stats s) < 2 ^ 64) by (rewrite IC; apply Z.mod_pos_bound; lia).
        pose proof (stat_fold_range e msgs (if_stats s) RG) as RG2.
        rewrite <- (Z.mod_small (counter e (fold_left stat_step msgs (if_stats s))) (2 ^ 64)) by auto.
        fold (u64 (counter e (fold_left stat_step msgs (if_stats s)))).
        rewrite stat_fold_counter, IC, errors_app. unfold u64. rewrite Z.add_mod_idemp_l by lia. reflexivity.
Qed.

Lemma delivered_cons : forall r rs, delivered (r :: rs) = delivered [r] + delivered rs.
Proof. intros [w|x] rs; cbn [delivered]; lia. Qed.
Lemma received_cons : forall c cs, received (c :: cs) = received [c] ++ received cs.
Proof. intros [k fs n|res e ms out] cs; cbn [received]; auto. rewrite app_nil_r. auto. Qed.

Lemma stats_calls : forall cs s n ms, iface_typed s -> Forall call_ok cs -> stats_inv s n ms ->
  exists rs s', do_calls cs s = Ret (rs, s') /\ iface_typed s' /\ stats_inv s' (n + delivered rs) (ms ++ received cs).
Proof.
  induction cs as [|c cs IH]; intros s n ms TS CO SI.
  - exists [], s. cbn [do_calls delivered received]. rewrite Z.add_0_r, app_nil_r. auto.
  - inversion CO; subst. destruct (stats_call c s n ms TS H1 SI) as [r [s1 [E1 [T1 S1]]]].
    destruct (IH s1 _ _ T1 H2 S1) as [rs [s2 [E2 [T2 S2]]]].
    cbn [do_calls]. rewrite E1. cbn [bind]. rewrite E2. cbn [bind].
    exists (r :: rs), s2. split; auto. split; auto. rewrite delivered_cons, received_cons.
    rewrite Z.add_assoc, app_assoc. auto.
Qed.

Lemma iface_make_typed : forall i nm fd, iface_typed (iface_make i nm fd).
Proof.
  intros. unfold iface_make, iface_typed. cbn [if_buf if_ctl]. rewrite !repeat_length. repeat split; auto.
  apply Forall_forall. intros c Hc. apply repeat_spec in Hc. subst. unfold canfd_typed. cbn [cf_id cf_len cf_data].
  rewrite repeat_length. lia.
Qed.

Lemma statistics_history : forall i nm fd cs, Forall call_ok cs ->
  exists rs s', do_calls cs (iface_make i nm fd) = Ret (rs, s') /\
    rx_total (getStatistics s') = delivered rs mod 2 ^ 64 /\
    forall e, counter e (getStatistics s') = errors_with (class_bit e) (received cs) mod 2 ^ 64.
Proof.
  intros i nm fd cs CO. destruct (stats_calls cs (iface_make i nm fd) 0 [] (iface_make_typed i nm fd) CO) as [rs [s' [E [_ [A B]]]]].
  - split; [reflexivity|]. intros []; reflexivity.
  - exists rs, s'. split; auto.
Qed.

(** ** Ancillary data *)
Lemma kernel_msg_stamped : forall stale k sec usec, sk_stamp k = Some (sec, usec) ->
  kernel_msg stale 32 k = KMsg (sk_id k) (sk_len k) (sk_bytes k) [CMsg SOL_SOCKET SO_TIMESTAMP 32 (sec, usec) 0] 32.
Proof.
  intros stale k sec usec H. unfold kernel_msg. rewrite H. cbn. destruct (sk_drops k =? 0); reflexivity.
Qed.

Lemma kernel_msgs_stamped : forall stale ctl ks, Forall (eq 32) ctl -> Forall stamped ks -> Forall skb_typed ks ->
  Forall kmsg_typed (kernel_msgs stale ctl ks) /\ length (kernel_msgs stale ctl ks) = Nat.min (length ctl) (length ks) /\
  (forall d, 0 <= d < 2 ^ 64 -> Forall (fun m => snd (cmsg_loop (km_controllen m) (km_cmsgs m) 0 d) = d) (kernel_msgs stale ctl ks)) /\
  Forall (eq 32) (receive_ctl (kernel_msgs stale ctl ks) ctl).
Proof.
  induction ctl as [|c ctl IH]; intros ks C S T; [simpl; auto|]. destruct ks as [|k ks]; [simpl; auto|].
  inversion C; inversion S; inversion T; subst. destruct (IH ks) as [A [B [D E]]]; auto.
  cbn [kernel_msgs]. destruct (sk_stamp k) as [[sec usec]|] eqn:ES; [|exfalso; apply H5; auto].
  rewrite (kernel_msg_stamped stale k sec usec ES). destruct H9 as [T1 [T2 [T3 T4]]].
  split; [|split; [|split]].
  - constructor; auto. unfold kmsg_typed. cbn [km_id km_len km_bytes km_cmsgs km_controllen]. repeat split; auto; lia.
  - cbn [length Nat.min]. auto.
  - intros d Hd. constructor; auto.
  - cbn [receive_ctl km_controllen]. constructor; auto.
Qed.

Lemma dropped_fold : forall ms st, 0 <= rx_dropped st < 2 ^ 64 ->
  (forall d, 0 <= d < 2 ^ 64 -> Forall (fun m => snd (cmsg_loop (km_controllen m) (km_cmsgs m) 0 d) = d) ms) ->
  rx_dropped (fold_left stat_step ms st) = rx_dropped st.
Proof.
  induction ms as [|m ms IH]; intros st R H; cbn [fold_left]; auto.
  assert (E : rx_dropped (stat_step st m) = rx_dropped st).
  { specialize (H _ R). inversion H; subst. unfold stat_step. destruct (is_error (km_id m)); cbn [count_error rx_dropped set_dropped]; auto. }
  rewrite IH; rewrite ?E; auto. intros d Hd. specialize (H d Hd). inversion H; auto.
Qed.

Lemma kernel_read_ok : forall stale ks out s, iface_typed s -> Forall (eq 32) (if_ctl s) ->
  run_ok (stale, ks, out) -> 0 <= rx_dropped (if_stats s) < 2 ^ 64 ->
  exists r, kernel_read stale ks s out = Ret r /\ iface_typed (rd_if r) /\ Forall (eq 32) (if_ctl (rd_if r)) /\
    rx_dropped (if_stats (rd_if r)) = rx_dropped (if_stats s).
Proof.
  intros stale ks out s TS C [TK [SK TF]] RD. unfold kernel_read. destruct ks as [|k0 ks].
  - eexists. split; [reflexivity|]. cbn [rd_if]. auto.
  - destruct (kernel_msgs_stamped stale (if_ctl s) (k0 :: ks) C SK TK) as [A [B [D E]]].
    pose proof TS as [_ [_ LC]]. rewrite LC in B.
    set (ms := kernel_msgs stale (if_ctl s) (k0 :: ks)) in *.
    assert (RO : recv_ok (Z.of_nat (length ms)) ms).
    { split; [rewrite B; lia|]. split; auto. }
    cbv zeta. destruct (read_typed (Z.of_nat (length ms)) 0 ms s out TS TF RO) as [r [HR [TR _]]].
    exists r. split; auto. split; auto.
    rewrite read_eq in HR by auto. inversion HR.
    assert (0 < Z.of_nat (length ms)) by (rewrite B; cbn [length]; lia).
    destruct (Z.leb_spec (Z.of_nat (length ms)) 0); [lia|]. cbn [rd_if if_ctl if_stats]. split; auto.
    cbn [add_total rx_dropped]. apply dropped_fold; auto.
Qed.

Lemma kernel_reads_ok : forall hist s, iface_typed s -> Forall (eq 32) (if_ctl s) -> Forall run_ok hist ->
  0 <= rx_dropped (if_stats s) < 2 ^ 64 ->
  exists rs s', kernel_reads hist s = Ret (rs, s') /\ rx_dropped (if_stats s') = rx_dropped (if_stats s).
Proof.
  induction hist as [|[[stale ks] out] hist IH]; intros s TS C H RD.
  - exists [], s. auto.
  - inversion H; subst. destruct (kernel_read_ok stale ks out s TS C H2 RD) as [r [E [T [C' D]]]].
    cbn [kernel_reads]. rewrite E. cbn [bind].
    destruct (IH (rd_if r) T C' H3) as [rs [s' [E' D']]]; [lia|]. rewrite E'. cbn [bind].
    exists (r :: rs), s'. split; auto. lia.
Qed.

Lemma drops_never_reported : forall i nm fd hist, Forall run_ok hist ->
  exists rs s', kernel_reads hist (iface_make i nm fd) = Ret (rs, s') /\ rx_dropped (getStatistics s') = 0.
Proof.
  intros i nm fd hist H. destruct (kernel_reads_ok hist (iface_make i nm fd)) as [rs [s' [E D]]]; auto.
  - apply iface_make_typed.
  - unfold iface_make; cbn [if_ctl]. repeat constructor.
  - cbn. lia.
  - exists rs, s'. split; auto.
Qed.

(** A drop report that does reach the interface is added. *)
Lemma drop_reported : forall errno m s out r, iface_typed s -> frames_typed out -> kmsg_typed m ->
  0 <= rx_dropped (if_stats s) < 2 ^ 64 ->
  read 1 errno [m] s out = Ret r ->
  rx_dropped (if_stats (rd_if r)) =
  (rx_dropped (if_stats s) + fold_right (fun c a => cm_u32 c + a) 0 (List.filter is_drop (km_cmsgs m))) mod 2 ^ 64.
Proof.
  intros errno m s out r TS TF TM RD HR. rewrite read_eq in HR; auto.
  2: { split; [lia|]. split; auto. }
  inversion HR. cbn [Z.leb Z.compare rd_if if_stats add_total rx_dropped fold_left].
  assert (E : rx_dropped (stat_step (if_stats s) m) = snd (cmsg_loop (km_controllen m) (km_cmsgs m) 0 (rx_dropped (if_stats s)))).
  { unfold stat_step. destruct (is_error (km_id m)); reflexivity. }
  rewrite E. rewrite cmsg_loop_drop; auto. apply TM.
Qed.

(** Times through the kernel: every frame of a run in which all messages are stamped carries its own receive time. *)
Lemma kernel_stamp : forall stale k sec usec, sk_stamp k = Some (sec, usec) ->
  stamp (kernel_msg stale 32 k) = (sec * 1000000 + usec) mod 2 ^ 64.
Proof. intros. rewrite (kernel_msg_stamped stale k sec usec H). reflexivity. Qed.

Definition skb_accepted (k : skb) : bool := accepts (sk_id k).

Lemma kernel_msgs_times : forall stale ctl ks, Forall (eq 32) ctl -> Forall stamped ks ->
  Forall2 (fun k m => km_id m = sk_id k /\ match sk_stamp k with Some (sec, usec) => stamp m = (sec * 1000000 + usec) mod 2 ^ 64 | None => False end)
    (firstn (length ctl) ks) (kernel_msgs stale ctl ks).
Proof.
  induction ctl as [|c ctl IH]; intros ks C S; [constructor|]. destruct ks as [|k ks]; [constructor|].
  inversion C; inversion S; subst. cbn [length firstn kernel_msgs].
  destruct (sk_stamp k) as [[sec usec]|] eqn:ES; [|exfalso; apply H5; auto].
  constructor; auto. rewrite ES. split.
  - rewrite (kernel_msg_stamped stale k sec usec ES). reflexivity.
  - apply kernel_stamp; auto.
Qed.

Lemma forall2_filter : forall A B (R : A -> B -> Prop) (p : A -> bool) (q : B -> bool) la lb,
  (forall a b, R a b -> p a = q b) -> Forall2 R la lb -> Forall2 R (List.filter p la) (List.filter q lb).
Proof.
  intros A B R p q la lb HR F. induction F; simpl; auto. rewrite (HR x y H). destruct (q y); auto.
Qed.

Lemma forall2_trans : forall A B C (R : A -> B -> Prop) (Q : B -> C -> Prop) la lb lc,
  Forall2 R la lb -> Forall2 Q lb lc -> Forall2 (fun a c => exists b, R a b /\ Q b c) la lc.
Proof.
  intros A B C R Q la lb lc F. revert lc. induction F; intros lc G; inversion G; subst; constructor; eauto.
Qed.

Lemma forall2_impl : forall A B (R Q : A -> B -> Prop) la lb, (forall a b, R a b -> Q a b) -> Forall2 R la lb -> Forall2 Q la lb.
Proof. intros A B R Q la lb H F. induction F; auto. Qed.

Lemma kernel_reads_typed : forall hist s, iface_typed s -> Forall (eq 32) (if_ctl s) -> Forall run_ok hist ->
  0 <= rx_dropped (if_stats s) < 2 ^ 64 ->
  exists rs s', kernel_reads hist s = Ret (rs, s') /\ iface_typed s' /\ Forall (eq 32) (if_ctl s') /\ 0 <= rx_dropped (if_stats s') < 2 ^ 64.
Proof.
  induction hist as [|[[stale ks] out] hist IH]; intros s TS C H RD.
  - exists [], s. auto.
  - inversion H; subst. destruct (kernel_read_ok stale ks out s TS C H2 RD) as [r [E [T [C' D]]]].
    cbn [kernel_reads]. rewrite E. cbn [bind].
    destruct (IH (rd_if r) T C' H3) as [rs [s' [E' [T' [C2 D']]]]]; [lia|]. rewrite E'. cbn [bind].
    exists (r :: rs), s'. auto.
Qed.

Lemma kernel_read_times : forall stale ks out s r, iface_typed s -> Forall (eq 32) (if_ctl s) ->
  run_ok (stale, ks, out) -> kernel_read stale ks s out = Ret r ->
  Forall2 (fun k f => fid f = sk_id k /\ match sk_stamp k with Some (sec, usec) => fts f = (sec * 1000000 + usec) mod 2 ^ 64 | None => False end)
    (List.filter (fun k => negb (is_error (sk_id k)) && negb (identifier (sk_id k) =? 0)) (firstn 4 ks))
    (firstn (rd_count r) (rd_frames r)).
Proof.
  intros stale ks out s r TS C [TK [SK TF]] HR. unfold kernel_read in HR. destruct ks as [|k0 ks].
  - inversion HR; subst. simpl. constructor.
  - destruct (kernel_msgs_stamped stale (if_ctl s) (k0 :: ks) C SK TK) as [A [B [D E]]].
    pose proof (kernel_msgs_times stale (if_ctl s) (k0 :: ks) C SK) as TM.
    pose proof TS as [_ [_ LC]]. rewrite LC in B, TM. cbv zeta in HR.
    set (ms := kernel_msgs stale (if_ctl s) (k0 :: ks)) in *.
    assert (RO : recv_ok (Z.of_nat (length ms)) ms) by (split; [rewrite B; lia|]; split; auto).
    assert (P : 0 < Z.of_nat (length ms)) by (rewrite B; cbn [length]; lia).
    destruct (read_positive _ 0 ms s out TS TF RO P) as [r' [HR' [_ Q]]].
    assert (r' = r) by congruence. subst r'. cbv zeta in Q. destruct Q as [_ [_ [_ [Q _]]]].
    eapply (forall2_filter _ _ _ (fun k => negb (is_error (sk_id k)) && negb (identifier (sk_id k) =? 0))
      (fun m => negb (is_error (km_id m)) && negb (identifier (km_id m) =? 0))) in TM; [|intros a b [HE _]; rewrite HE; reflexivity].
    eapply forall2_impl; [|eapply forall2_trans; [exact TM|exact Q]].
    intros k f [m [[H1 H2] [H3 [H4 _]]]]. split; [congruence|].
    destruct (sk_stamp k) as [[sec usec]|]; auto. congruence.
Qed.

Lemma kernel_history_times : forall i nm fd hist rs s stale ks out,
  Forall run_ok hist -> kernel_reads hist (iface_make i nm fd) = Ret (rs, s) -> run_ok (stale, ks, out) ->
  exists r, kernel_read stale ks s out = Ret r /\
  Forall2 (fun k f => fid f = sk_id k /\ match sk_stamp k with Some (sec, usec) => fts f = (sec * 1000000 + usec) mod 2 ^ 64 | None => False end)
    (List.filter (fun k => negb (is_error (sk_id k)) && negb (identifier (sk_id k) =? 0)) (firstn 4 ks))
    (firstn (rd_count r) (rd_frames r)).
Proof.
  intros i nm fd hist rs s stale ks out H E R.
  destruct (kernel_reads_typed hist (iface_make i nm fd)) as [rs' [s' [E' [T [C D]]]]]; auto.
  - apply iface_make_typed.
  - unfold iface_make; cbn [if_ctl]. repeat constructor.
  - cbn. lia.
  - rewrite E in E'. inversion E'; subst rs' s'.
    destruct (kernel_read_ok stale ks out s T C R D) as [r [HR _]]. exists r. split; auto.
    eapply kernel_read_times; eauto.
Qed.

(** ** Single messages *)
Lemma read_one : forall errno m s out, iface_typed s -> frames_typed out -> kmsg_typed m ->
  exists r, read 1 errno [m] s out = Ret r /\
    (rd_count r = 1%nat <-> is_error (km_id m) = false /\ identifier (km_id m) <> 0) /\
    (rd_count r = 0%nat <-> is_error (km_id m) = true \/ identifier (km_id m) = 0) /\
    (rd_count r = 1%nat -> exists f, nth_error (rd_frames r) 0 = Some f /\ delivered_frame m f /\
       (getDataLength f = km_len m <-> km_len m <= 8)).
Proof.
  intros errno m s out TS TF TM.
  assert (RO : recv_ok 1 [m]) by (split; [lia|]; split; auto).
  destruct (read_positive 1 errno [m] s out TS TF RO ltac:(lia)) as [r [HR [_ Q]]].
  exists r. split; auto. cbv zeta in Q. cbn [List.filter] in Q.
  destruct (is_error (km_id m)); cbn [negb andb] in Q.
  - destruct Q as [Q1 _]. rewrite Q1. cbn [length]. repeat split; intros; auto; try lia; try (destruct H; discriminate).
  - destruct (Z.eqb_spec (identifier (km_id m)) 0); cbn [negb] in Q.
    + destruct Q as [Q1 _]. rewrite Q1. cbn [length]. repeat split; intros; auto; try lia; try (destruct H; contradiction).
    + destruct Q as [Q1 [_ [L [Q2 _]]]]. rewrite Q1. cbn [length] in *. repeat split; intros; auto; try lia.
      * rewrite Q1 in Q2. destruct (rd_frames r) as [|f fs]; [cbn in L; lia|]. cbn [firstn] in Q2.
        inversion Q2; subst. exists f. split; auto. split; auto.
        destruct H3 as [_ [_ [H3 _]]]. unfold getDataLength. rewrite H3.
        rewrite dlc_is_length_iff; [tauto|]. apply TM.
Qed.

Lemma Forall2_nth : forall A B (R : A -> B -> Prop) l m, Forall2 R l m -> forall j a b,
  nth_error l j = Some a -> nth_error m j = Some b -> R a b.
Proof.
  induction 1 as [|x y l m H F IH]; intros [|j] a b X Y; try discriminate.
  - injection X as <-. injection Y as <-. exact H.
  - exact (IH j a b X Y).
Qed.
