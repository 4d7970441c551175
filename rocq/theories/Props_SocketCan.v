(** C54-C63: the SocketCAN interface. *)
From Coq Require Import ZArith Bool String List Lia.
From Verif Require Import Outcome ResultModel CanFrameModel CanFrameSpec CanFrameProofs SocketCanModel SocketCanSpec SocketCanProofs SocketCanHist.
Import ListNotations.
Open Scope Z_scope.

(** A concrete interface, caller's array and kernel used by the examples below. *)
Definition ex_if : iface := iface_make 0 "vcan0" 3.
Definition ex_bytes (x : Z) : list Z := repeat x 64.
Definition ex_frames : list frame := [Frame 0x123 (ex_bytes 7) 8 0; Frame 0xE0000456 (ex_bytes 9) 9 0; frame_default 64; frame_default 64].
Definition ex_out : list frame := repeat (frame_default 64) 4.
Definition ex_kernel (n e : Z) : list canfd -> Z * Z := fun _ => (n, e).

Example ex_if_typed : iface_typed ex_if.
Proof. apply iface_make_typed. Qed.
Example ex_frames_typed : frames_typed ex_frames.
Proof. split; [reflexivity|]. repeat constructor; cbn; lia. Qed.
Example ex_out_typed : frames_typed ex_out.
Proof. split; [reflexivity|]. repeat constructor; cbn; lia. Qed.

(** C54. *)
Theorem C54_write_reports_kernel_count : forall k s fs n, iface_typed s -> frames_typed fs -> send_ok k -> (1 <= n <= 4)%nat ->
  exists w sent, write k s fs n = Ret w /\ wr_sent w = Some sent /\ length sent = n /\
    let accepted := fst (k sent) in
    let errno := snd (k sent) in
    (wr_result w = Success <-> accepted = Z.of_nat n) /\
    (wr_result w = SuccessPartial <-> 0 < accepted < Z.of_nat n) /\
    (wr_result w = BufferFull <-> accepted <= 0 /\ (errno = ENOBUFS \/ errno = EAGAIN)) /\
    (wr_result w = Failure <-> accepted <= 0 /\ errno <> ENOBUFS /\ errno <> EAGAIN) /\
    wr_count w = Z.max 0 accepted.
Proof. exact write_result. Qed.
Print Assumptions C54_write_reports_kernel_count.
Theorem C54_write_nothing : forall k s fs, write k s fs 0 = Ret (WriteOut s BadArgument 0 None).
Proof. exact write_zero. Qed.
Print Assumptions C54_write_nothing.
Example C54_case : match write (fun ms => (Z.of_nat (length ms) - 1, 0)) ex_if ex_frames 2 with
  | Ret w => wr_result w = SuccessPartial /\ wr_count w = 1 | UB => False end.
Proof. vm_compute. auto. Qed.

(** C55. Full statement: as below with [cf_len m = getDataLength f]. The identifier, the format and the payload bytes are
    right for every frame; the length is not. *)
Theorem C55_write_identifier_and_payload_partial : forall k s fs n w,
  iface_typed s -> frames_typed fs -> (1 <= n <= 4)%nat -> write k s fs n = Ret w ->
  exists sent, wr_sent w = Some sent /\ length sent = n /\
  forall i f, (i < n)%nat -> nth_error fs i = Some f ->
  exists m, nth_error sent i = Some m /\
    is_extended (cf_id m) = true /\ is_error (cf_id m) = false /\ is_remote (cf_id m) = false /\
    identifier (cf_id m) = identifier (fid f) /\ cf_len m = fdlc f /\
    firstn (Z.to_nat (getDataLength f)) (cf_data m) = payload f.
Proof. exact write_wire. Qed.
Print Assumptions C55_write_identifier_and_payload_partial.
(** The length is right exactly for frames of at most 8 bytes; the wire carries only as many bytes as the frame's length
    code. *)
Theorem C55_write_length_iff : forall k s fs n w sent i f m,
  iface_typed s -> frames_typed fs -> (1 <= n <= 4)%nat ->
  write k s fs n = Ret w -> wr_sent w = Some sent -> (i < n)%nat -> nth_error fs i = Some f -> nth_error sent i = Some m ->
  (cf_len m = getDataLength f <-> fdlc f <= 8) /\
  (fdlc f <= 15 -> wire_payload m = firstn (Z.to_nat (fdlc f)) (payload f)).
Proof. exact write_wire_length. Qed.
Print Assumptions C55_write_length_iff.
(** A 12-byte frame is sent with 9 bytes. *)
Theorem C55_write_length_refuted : exists f w m,
  getDataLength f = 12 /\ write (ex_kernel 1 0) ex_if (f :: ex_frames) 1 = Ret w /\ wr_sent w = Some [m] /\ cf_len m = 9.
Proof.
  exists (Frame 1 (ex_bytes 7) 9 0).
  assert (C : match write (ex_kernel 1 0) ex_if (Frame 1 (ex_bytes 7) 9 0 :: ex_frames) 1 with
              | Ret w => match wr_sent w with Some [m] => cf_len m = 9 | _ => False end | UB => False end) by (vm_compute; reflexivity).
  destruct (write _ _ _ _) as [w|]; [|contradiction].
  destruct (wr_sent w) as [[|m [|? ?]]|] eqn:E; try contradiction.
  exists w, m. auto.
Qed.
Print Assumptions C55_write_length_refuted.
Example C55_case : match write (ex_kernel 2 0) ex_if ex_frames 2 with
  | Ret w => option_map (map cf_id) (wr_sent w) = Some [0x80000123; 0x80000456] | UB => False end.
Proof. vm_compute. auto. Qed.

(** C56. Full statement: [forall n, write k s fs n <> UB]. *)
Theorem C56_write_in_bounds_iff : forall k s fs n, iface_typed s -> frames_typed fs ->
  (write k s fs n <> UB <-> (n <= 4)%nat).
Proof.
  intros k s fs n TS TF. split.
  - intros H. destruct (le_lt_dec n 4); auto. exfalso. apply H. apply write_oob; auto.
  - intros H. destruct (write_typed k s fs n TS TF H) as [w [E _]]. rewrite E. discriminate.
Qed.
Print Assumptions C56_write_in_bounds_iff.
Theorem C56_write_out_of_bounds_refuted : write (ex_kernel 1 0) ex_if ex_frames 5 = UB.
Proof. apply write_oob; [exact ex_frames_typed|lia]. Qed.
Print Assumptions C56_write_out_of_bounds_refuted.
Example C56_case : match write (ex_kernel 4 0) ex_if ex_frames 4 with Ret w => wr_result w = Success | UB => False end.
Proof. vm_compute. reflexivity. Qed.

(** C57. *)
Theorem C57_read_delivers_in_order : forall res errno msgs s out,
  iface_typed s -> frames_typed out -> recv_ok res msgs -> 0 < res ->
  exists r, read res errno msgs s out = Ret r /\ rd_result r = Success /\
    let good := List.filter (fun m => negb (is_error (km_id m)) && negb (identifier (km_id m) =? 0)) msgs in
    rd_count r = length good /\ (rd_count r <= 4)%nat /\ length (rd_frames r) = 4%nat /\
    Forall2 delivered_frame good (firstn (rd_count r) (rd_frames r)) /\
    skipn (rd_count r) (rd_frames r) = skipn (rd_count r) out.
Proof. exact read_positive. Qed.
Print Assumptions C57_read_delivers_in_order.
Theorem C57_read_nothing_or_error : forall res errno msgs s out, res <= 0 ->
  exists r, read res errno msgs s out = Ret r /\ rd_count r = 0%nat /\ rd_frames r = out /\ rd_if r = s /\
    (rd_result r = SuccessNothing <-> res < 0 /\ errno = EWOULDBLOCK) /\
    (rd_result r = UnknownInternalError <-> ~ (res < 0 /\ errno = EWOULDBLOCK)).
Proof. exact read_negative. Qed.
Print Assumptions C57_read_nothing_or_error.
Definition ex_msgs : list kmsg :=
  [KMsg 0x80000007 2 [1; 2] [CMsg 1 29 32 (5, 6) 0] 32; KMsg 0x20000041 8 [] [] 0; KMsg 0x80000001 1 [9] [] 0].
Example C57_case : match read 3 0 ex_msgs ex_if ex_out with
  | Ret r => rd_count r = 2%nat /\ map fid (rd_frames r) = [0x80000007; 0x80000001; 0; 0] /\ map fts (rd_frames r) = [5000006; 0; 0; 0]
  | UB => False end.
Proof. vm_compute. auto. Qed.

(** C58. Full statement: [rd_count r = 1 <-> extended_data_frame (km_id m) = true]. *)
Theorem C58_read_accepts_iff : forall errno m s out, iface_typed s -> frames_typed out -> kmsg_typed m ->
  exists r, read 1 errno [m] s out = Ret r /\
    (rd_count r = 1%nat <-> is_error (km_id m) = false /\ identifier (km_id m) <> 0).
Proof.
  intros errno m s out TS TF TM. destruct (read_one errno m s out TS TF TM) as [r [E [A _]]]. exists r; auto.
Qed.
Print Assumptions C58_read_accepts_iff.
Theorem C58_read_extended_partial : forall errno m s out, iface_typed s -> frames_typed out -> kmsg_typed m ->
  extended_data_frame (km_id m) = true -> identifier (km_id m) <> 0 ->
  exists r, read 1 errno [m] s out = Ret r /\ rd_count r = 1%nat.
Proof.
  intros errno m s out TS TF TM X N. destruct (read_one errno m s out TS TF TM) as [r [E [A _]]]. exists r. split; auto.
  apply A. split; auto. unfold extended_data_frame in X. destruct (is_error (km_id m)); auto.
  rewrite andb_false_r in X. discriminate.
Qed.
Print Assumptions C58_read_extended_partial.
(** A standard (11-bit) frame and a remote frame are delivered; the extended frame with identifier 0 is not. *)
Theorem C58_read_filter_refuted :
  extended_data_frame 0x123 = false /\ extended_data_frame 0xC0000123 = false /\ extended_data_frame 0x80000000 = true /\
  match read 3 0 [KMsg 0x123 0 [] [] 0; KMsg 0xC0000123 0 [] [] 0; KMsg 0x80000000 0 [] [] 0] ex_if ex_out with
  | Ret r => rd_count r = 2%nat /\ firstn 2 (map fid (rd_frames r)) = [0x123; 0xC0000123]
  | UB => False end.
Proof. vm_compute. auto. Qed.
Print Assumptions C58_read_filter_refuted.
Example C58_case : kmsg_typed (KMsg 0x9FFFFFFF 8 (ex_bytes 1) [] 0) /\ extended_data_frame 0x9FFFFFFF = true /\
  identifier 0x9FFFFFFF <> 0 /\ is_error 0x20000041 = true.
Proof. split; [repeat split; cbn; lia || congruence |]. split; [reflexivity |]. split; [vm_compute; discriminate | reflexivity]. Qed.

(** C59. Full statement: [getDataLength f = km_len m] for all of them. *)
Theorem C59_read_length_iff : forall errno m s out, iface_typed s -> frames_typed out -> kmsg_typed m ->
  exists r, read 1 errno [m] s out = Ret r /\
    (rd_count r = 1%nat -> exists f, nth_error (rd_frames r) 0 = Some f /\ delivered_frame m f /\
       (getDataLength f = km_len m <-> km_len m <= 8)).
Proof.
  intros errno m s out TS TF TM. destruct (read_one errno m s out TS TF TM) as [r [E [_ [_ A]]]]. exists r; auto.
Qed.
Print Assumptions C59_read_length_iff.
(** A received 12-byte frame is delivered as a 24-byte frame, a 64-byte frame as an empty one. *)
Theorem C59_read_length_refuted :
  match read 2 0 [KMsg 0x80000001 12 (ex_bytes 5) [] 0; KMsg 0x80000001 64 (ex_bytes 5) [] 0] ex_if ex_out with
  | Ret r => firstn 2 (map getDataLength (rd_frames r)) = [24; 0]
  | UB => False end.
Proof. vm_compute. auto. Qed.
Print Assumptions C59_read_length_refuted.
Example C59_case : match read 1 0 [KMsg 0x80000001 5 (ex_bytes 5) [] 0] ex_if ex_out with
  | Ret r => rd_count r = 1%nat /\ map getDataLength (firstn 1 (rd_frames r)) = [5]
  | UB => False end.
Proof. vm_compute. auto. Qed.

(** C60. Through any interface (possibly another than the one written to) and whatever the buffers held. *)
Theorem C60_loopback_lossless : forall k s fs n w sent ex errno s2 out,
  iface_typed s -> frames_typed fs -> (1 <= n <= 4)%nat ->
  (forall i f, (i < n)%nat -> nth_error fs i = Some f -> identifier (fid f) <> 0) ->
  write k s fs n = Ret w -> wr_sent w = Some sent ->
  length ex = n -> Forall (fun e : list cmsg * Z => fst e <> [] -> 16 <= snd e) ex ->
  iface_typed s2 -> frames_typed out ->
  exists r, read (Z.of_nat n) errno (zip_looped sent ex) s2 out = Ret r /\
    rd_result r = Success /\ rd_count r = n /\
    forall i f, (i < n)%nat -> nth_error fs i = Some f ->
    exists g, nth_error (rd_frames r) i = Some g /\ frame_eq 0 g f = Ret true.
Proof. exact loopback. Qed.
Print Assumptions C60_loopback_lossless.
Example C60_case : (forall i f, (i < 2)%nat -> nth_error ex_frames i = Some f -> identifier (fid f) <> 0) /\
  match write (ex_kernel 2 0) ex_if ex_frames 2 with
  | Ret w => match wr_sent w with
      | Some sent => match read 2 0 (zip_looped sent [([], 0); ([], 0)]) ex_if ex_out with
          | Ret r => rd_count r = 2%nat /\ map (fun f => identifier (fid f)) (firstn 2 (rd_frames r)) = [0x123; 0x456] /\
                     map payload (firstn 2 (rd_frames r)) = map payload (firstn 2 ex_frames)
          | UB => False end
      | None => False end
  | UB => False end.
Proof.
  split.
  - intros [|[|i]] f H E; [inversion E; subst; vm_compute; discriminate|inversion E; subst; vm_compute; discriminate|lia].
  - vm_compute. auto.
Qed.

(** C61. Modulo the width of the counters. *)
Theorem C61_statistics_exact : forall i nm fd cs, Forall call_ok cs ->
  exists rs s', do_calls cs (iface_make i nm fd) = Ret (rs, s') /\
    rx_total (getStatistics s') = delivered rs mod 2 ^ 64 /\
    forall e, counter e (getStatistics s') = errors_with (class_bit e) (received cs) mod 2 ^ 64.
Proof. exact statistics_history. Qed.
Print Assumptions C61_statistics_exact.
Theorem C61_write_keeps_statistics : forall k s fs n w, write k s fs n = Ret w -> getStatistics (wr_if w) = getStatistics s.
Proof. intros k s fs n w H. apply (write_keeps _ _ _ _ _ H). Qed.
Print Assumptions C61_write_keeps_statistics.
Example C61_case : Forall call_ok [CallRead 3 0 ex_msgs ex_out; CallWrite (ex_kernel 0 105) ex_frames 2; CallRead (-1) 11 [] ex_out] /\
  match do_calls [CallRead 3 0 ex_msgs ex_out; CallWrite (ex_kernel 0 105) ex_frames 2; CallRead (-1) 11 [] ex_out] ex_if with
  | Ret (rs, s) => rx_total (getStatistics s) = 2 /\ counter TxTimeout (getStatistics s) = 1 /\
                   counter BusOff (getStatistics s) = 1 /\ counter Ack (getStatistics s) = 0
  | UB => False end.
Proof.
  split; [|vm_compute; auto].
  constructor; [|constructor; [|constructor; [|constructor]]]; cbn [call_ok].
  - split; [|exact ex_out_typed]. split; [lia|]. split; [|reflexivity]. repeat constructor; cbn; try lia; intros; congruence.
  - split; [|split; [exact ex_frames_typed|lia]]. intros ms. cbn. lia.
  - split; [|exact ex_out_typed]. split; [lia|]. split; [constructor|lia].
Qed.

(** C62. Full statement: rx_dropped increases when the kernel has drops to report. With the control buffers the interface
    provides and timestamps on, the drop count of no message ever arrives, in any run. *)
Theorem C62_drops_never_reported_refuted : forall i nm fd hist, Forall run_ok hist ->
  exists rs s', kernel_reads hist (iface_make i nm fd) = Ret (rs, s') /\ rx_dropped (getStatistics s') = 0.
Proof. exact drops_never_reported. Qed.
Print Assumptions C62_drops_never_reported_refuted.
(** What holds: a drop count that reaches the interface is added. *)
Theorem C62_reported_drops_added_partial : forall errno m s out r, iface_typed s -> frames_typed out -> kmsg_typed m ->
  0 <= rx_dropped (if_stats s) < 2 ^ 64 ->
  read 1 errno [m] s out = Ret r ->
  rx_dropped (if_stats (rd_if r)) =
  (rx_dropped (if_stats s) + fold_right (fun c a => cm_u32 c + a) 0 (List.filter is_drop (km_cmsgs m))) mod 2 ^ 64.
Proof. exact drop_reported. Qed.
Print Assumptions C62_reported_drops_added_partial.
Example C62_case : Forall run_ok [(0, [Skb 0x80000001 8 (ex_bytes 1) (Some (1, 2)) 77], ex_out)].
Proof.
  constructor; [|constructor]. split; [|split].
  - repeat constructor; cbn; lia.
  - repeat constructor. discriminate.
  - exact ex_out_typed.
Qed.

(** C63: after any run, each frame carries its own receive time (the C57 theorem says the same for an arbitrary kernel). *)
Theorem C63_timestamps_exact : forall i nm fd hist rs s stale ks out,
  Forall run_ok hist -> kernel_reads hist (iface_make i nm fd) = Ret (rs, s) -> run_ok (stale, ks, out) ->
  exists r, kernel_read stale ks s out = Ret r /\
  Forall2 (fun k f => fid f = sk_id k /\
             match sk_stamp k with Some (sec, usec) => fts f = (sec * 1000000 + usec) mod 2 ^ 64 | None => False end)
    (List.filter (fun k => negb (is_error (sk_id k)) && negb (identifier (sk_id k) =? 0)) (firstn 4 ks))
    (firstn (rd_count r) (rd_frames r)).
Proof. exact kernel_history_times. Qed.
Print Assumptions C63_timestamps_exact.
(** And for every read, whatever the control messages: of a delivered message that has no timestamp the frame has time 0, of one
    that has one the frame has exactly that, if it can be represented. *)
Theorem C63_no_timestamp_is_zero : forall res errno msgs s out r,
  iface_typed s -> frames_typed out -> recv_ok res msgs -> 0 < res -> read res errno msgs s out = Ret r ->
  forall j m f, nth_error (List.filter (fun m => negb (is_error (km_id m)) && negb (identifier (km_id m) =? 0)) msgs) j = Some m ->
  nth_error (firstn (rd_count r) (rd_frames r)) j = Some f -> timestamps m = [] -> fts f = 0.
Proof.
  intros res errno msgs s out r TS TO RO RP RD j m f M F H.
  destruct (C57_read_delivers_in_order res errno msgs s out TS TO RO RP) as (r' & E & _ & _ & _ & _ & D & _).
  rewrite RD in E. injection E as <-. destruct (Forall2_nth _ _ _ _ _ D j m f M F) as (_ & T & _). rewrite T. unfold stamp. now rewrite H.
Qed.
Print Assumptions C63_no_timestamp_is_zero.
Theorem C63_representable_time : forall res errno msgs s out r,
  iface_typed s -> frames_typed out -> recv_ok res msgs -> 0 < res -> read res errno msgs s out = Ret r ->
  forall j m f, nth_error (List.filter (fun m => negb (is_error (km_id m)) && negb (identifier (km_id m) =? 0)) msgs) j = Some m ->
  nth_error (firstn (rd_count r) (rd_frames r)) j = Some f ->
  forall sec usec, timestamps m = [(sec, usec)] -> 0 <= sec -> 0 <= usec < 1000000 -> sec * 1000000 + usec < 2 ^ 64 ->
  fts f = sec * 1000000 + usec.
Proof.
  intros res errno msgs s out r TS TO RO RP RD j m f M F sec usec H SP U R.
  destruct (C57_read_delivers_in_order res errno msgs s out TS TO RO RP) as (r' & E & _ & _ & _ & _ & D & _).
  rewrite RD in E. injection E as <-. destruct (Forall2_nth _ _ _ _ _ D j m f M F) as (_ & T & _). rewrite T. unfold stamp. rewrite H.
  cbn [rev app]. apply Z.mod_small. lia.
Qed.
Print Assumptions C63_representable_time.
Example C63_reads_case : let stampless := KMsg 0x80000001 1 [7] [] 0 in
  let stamped := KMsg 0x80000002 1 [8] [CMsg SOL_SOCKET SO_TIMESTAMP 32 (5, 6) 0] 32 in
  recv_ok 2 [stampless; stamped] /\ timestamps stampless = [] /\ timestamps stamped = [(5, 6)] /\
  match read 2 0 [stampless; stamped] ex_if ex_out with
  | Ret r => map fts (firstn (rd_count r) (rd_frames r)) = [0; 5000006] | UB => False end.
Proof.
  cbn zeta. split; [|split; [reflexivity|split; [reflexivity|vm_compute; reflexivity]]].
  split; [lia|]. split; [|reflexivity]. repeat constructor; cbn; try lia; intuition discriminate.
Qed.
Example C63_case : match kernel_read 0 [Skb 0x80000001 8 (ex_bytes 1) (Some (1, 2)) 77; Skb 0x80000002 1 (ex_bytes 1) (Some (3, 4)) 0] ex_if ex_out with
  | Ret r => map fts (firstn (rd_count r) (rd_frames r)) = [1000002; 3000004]
  | UB => False end.
Proof. vm_compute. reflexivity. Qed.
