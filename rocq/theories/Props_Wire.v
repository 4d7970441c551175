(** C92-C95: the limit on filters, stale bytes in the message buffers, and frames on a real bus. *)
From Coq Require Import ZArith Bool String List Lia.
From Verif Require Import Outcome ResultModel CanFrameModel CanFrameSpec CanFrameProofs SocketCanModel SocketCanSpec SocketCanProofs
  SocketCanHist GroupModel GroupSpec GroupProofs ManagerModel WireSpec WireProofs Props_SocketCan Props_Group.
Import ListNotations.
Open Scope Z_scope.

(** C92. *)
Theorem C92_filter_limit_exact : forall ans, linux_takes ans -> forall fd cs n log, (n <= length cs)%nat -> Z.of_nat n < 2 ^ 29 ->
  (Z.of_nat n <= getMaxFrameFilters -> exists log', configureFilters ans fd (Some cs) n log = Ret (Success, log')) /\
  (getMaxFrameFilters < Z.of_nat n -> configureFilters ans fd (Some cs) n log = Ret (UnknownInternalError, log)).
Proof. exact takes_iff. Qed.
Print Assumptions C92_filter_limit_exact.
Theorem C92_group_filter_limit_exact : forall g ans cs n log,
  (1 <= length g <= 255)%nat -> NoDup (descriptors g) -> (forall t, linux_takes (ans t)) ->
  (n <= length cs)%nat -> Z.of_nat n < 2 ^ 29 ->
  exists r log', (forall fuel, (length g < fuel)%nat -> reconfigureFilters fuel g ans (Some cs) n log = Some (Ret (r, log'))) /\
    (isSuccess r = true <-> Z.of_nat n <= getMaxFrameFilters).
Proof. exact group_takes. Qed.
Print Assumptions C92_group_filter_limit_exact.
Definition ex_linux (fs : list kfilter) (optlen : Z) : Z := if (optlen mod 8 =? 0) && (optlen <=? 4096) then 0 else -1.
Example C92_linux : linux_takes ex_linux.
Proof.
  intros fs o. unfold ex_linux. destruct (Z.eqb_spec (o mod 8) 0), (Z.leb_spec o 4096); cbn [andb]; split; intros; try lia; auto.
Qed.
Example C92_case : (exists log, configureFilters ex_linux 3 (Some (repeat (Filter 1 2) 600)) 512 [] = Ret (Success, log)) /\
  configureFilters ex_linux 3 (Some (repeat (Filter 1 2) 600)) 513 [] = Ret (UnknownInternalError, []).
Proof.
  split.
  - apply (C92_filter_limit_exact _ C92_linux); rewrite ?repeat_length; unfold getMaxFrameFilters; lia.
  - apply (C92_filter_limit_exact _ C92_linux); rewrite ?repeat_length; unfold getMaxFrameFilters; lia.
Qed.
Example C92_group_case : (1 <= length ex_group <= 255)%nat /\ NoDup (descriptors ex_group) /\
  match reconfigureFilters 4 ex_group (fun _ => ex_linux) (Some (repeat (Filter 1 2) 600)) 512 [] with
  | Some (Ret (r, log)) => r = Success /\ map fst log = [7; 5; 3] | _ => False end /\
  reconfigureFilters 4 ex_group (fun _ => ex_linux) (Some (repeat (Filter 1 2) 600)) 513 [] = Some (Ret (UnknownInternalError, [])).
Proof. split; [cbn; lia|]. split; [cbn; repeat constructor; cbn; intuition lia|]. split; vm_compute; auto. Qed.

(** C93. Full statement: for every two interfaces, whatever happened to them before, the same call of write hands the same
    messages to the kernel. That is true of the identifier, the length and the bytes the frame's length covers, and of
    whole messages when the frame is 64 bytes long. *)
Theorem C93_sent_bytes_partial : forall k1 k2 s1 s2 fs n w1 w2 sent1 sent2 i f c1 c2,
  iface_typed s1 -> iface_typed s2 -> frames_typed fs -> (1 <= n <= 4)%nat ->
  write k1 s1 fs n = Ret w1 -> write k2 s2 fs n = Ret w2 -> wr_sent w1 = Some sent1 -> wr_sent w2 = Some sent2 ->
  (i < n)%nat -> nth_error fs i = Some f -> nth_error sent1 i = Some c1 -> nth_error sent2 i = Some c2 ->
  cf_id c1 = cf_id c2 /\ cf_len c1 = cf_len c2 /\
  (forall j, Z.of_nat j < getDataLength f -> nth j (cf_data c1) 0 = nth j (cf_data c2) 0) /\
  (getDataLength f = 64 -> c1 = c2).
Proof. exact sent_history_free. Qed.
Print Assumptions C93_sent_bytes_partial.
(** The bytes behind the payload are those of the message received before in the same position: they are handed to the
    kernel again. *)
Theorem C93_received_bytes_are_sent : forall res errno msgs s out r k fs n w sent i f m c,
  iface_typed s -> frames_typed out -> recv_ok res msgs -> 0 < res -> read res errno msgs s out = Ret r ->
  frames_typed fs -> (1 <= n <= 4)%nat -> write k (rd_if r) fs n = Ret w -> wr_sent w = Some sent ->
  (i < n)%nat -> nth_error fs i = Some f -> nth_error msgs i = Some m -> nth_error sent i = Some c ->
  forall j, getDataLength f <= Z.of_nat j -> (j < length (km_bytes m))%nat -> nth j (cf_data c) 0 = nth j (km_bytes m) 0.
Proof. exact received_resent. Qed.
Print Assumptions C93_received_bytes_are_sent.
(** Likewise those of the message handed to the kernel before in the same position. *)
Theorem C93_sent_bytes_are_sent_again : forall k1 k2 s fs1 n1 fs2 n2 w1 w2 sent1 sent2 i f c1 c2,
  iface_typed s -> frames_typed fs1 -> frames_typed fs2 -> (1 <= n1 <= 4)%nat -> (1 <= n2 <= 4)%nat ->
  write k1 s fs1 n1 = Ret w1 -> wr_sent w1 = Some sent1 -> write k2 (wr_if w1) fs2 n2 = Ret w2 -> wr_sent w2 = Some sent2 ->
  nth_error fs2 i = Some f -> nth_error sent1 i = Some c1 -> nth_error sent2 i = Some c2 ->
  forall j, getDataLength f <= Z.of_nat j -> nth j (cf_data c2) 0 = nth j (cf_data c1) 0.
Proof. exact sent_resent. Qed.
Print Assumptions C93_sent_bytes_are_sent_again.
Example C93_again_case :
  match do_calls [CallWrite (ex_kernel 1 0) (map (fun f => Frame (fid f) (ex_bytes 0x5A) 15 (fts f)) ex_frames) 1;
                  CallWrite (ex_kernel 1 0) ex_frames 1] ex_if with
  | Ret ([_; RepWrite w], _) => match wr_sent w with Some [c] => cf_data c = repeat 7 8 ++ repeat 0x5A 56 | _ => False end
  | _ => False
  end.
Proof. vm_compute. reflexivity. Qed.
Definition ex_secret : kmsg := KMsg (2 ^ 31 + 5) 64 (ex_bytes 0x5A) [] 0.
Example C93_case : recv_ok 1 [ex_secret] /\
  match do_calls [CallRead 1 0 [ex_secret] ex_out; CallWrite (ex_kernel 1 0) ex_frames 1] ex_if with
  | Ret ([_; RepWrite w], _) => match wr_sent w with Some [c] => cf_data c = repeat 7 8 ++ repeat 0x5A 56 | _ => False end
  | _ => False
  end.
Proof. split; [|vm_compute; reflexivity]. split; [lia|]. split; [|reflexivity]. repeat constructor; cbn; try lia; tauto. Qed.
Theorem C93_refuted : exists s1 s2 k fs w1 w2,
  iface_typed s1 /\ iface_typed s2 /\ frames_typed fs /\
  write k s1 fs 1 = Ret w1 /\ write k s2 fs 1 = Ret w2 /\ wr_sent w1 <> wr_sent w2.
Proof.
  destruct (read_typed 1 0 [ex_secret] ex_if ex_out ex_if_typed ex_out_typed (proj1 C93_case)) as [r [HR [TR _]]].
  destruct (write_typed (ex_kernel 1 0) ex_if ex_frames 1 ex_if_typed ex_frames_typed ltac:(lia)) as [w1 [W1 _]].
  destruct (write_typed (ex_kernel 1 0) (rd_if r) ex_frames 1 TR ex_frames_typed ltac:(lia)) as [w2 [W2 _]].
  exists ex_if, (rd_if r), (ex_kernel 1 0), ex_frames, w1, w2.
  split; [exact ex_if_typed|]. split; [exact TR|]. split; [exact ex_frames_typed|]. split; [exact W1|]. split; [exact W2|].
  intros E.
  destruct (write_wire (ex_kernel 1 0) ex_if ex_frames 1 w1 ex_if_typed ex_frames_typed ltac:(lia) W1) as [sent [S1 [L1 _]]].
  rewrite S1 in E. destruct sent as [|c [|? ?]]; try discriminate.
  assert (A : nth 8 (cf_data c) 0 = 0x5A).
  { refine (C93_received_bytes_are_sent 1 0 [ex_secret] ex_if ex_out r (ex_kernel 1 0) ex_frames 1 w2 [c] 0 (Frame 0x123 (ex_bytes 7) 8 0)
      ex_secret c ex_if_typed ex_out_typed (proj1 C93_case) _ HR ex_frames_typed _ W2 _ _ _ _ _ 8%nat _ _);
      first [reflexivity | symmetry; exact E | lia | cbn; lia]. }
  assert (B : match write (ex_kernel 1 0) ex_if ex_frames 1 with
    | Ret w => match wr_sent w with Some [d] => nth 8 (cf_data d) 0 = 0 | _ => False end | UB => False end) by (vm_compute; reflexivity).
  rewrite W1, S1 in B. lia.
Qed.
Print Assumptions C93_refuted.

(** C94. *)
Theorem C94_received_bytes_are_the_messages : forall res errno msgs s out,
  iface_typed s -> frames_typed out -> recv_ok res msgs -> 0 < res -> Forall whole msgs ->
  exists r, read res errno msgs s out = Ret r /\
    Forall2 (fun m f => payload f = firstn (Z.to_nat (getDataLength f)) (km_bytes m) /\
                        length (payload f) = Z.to_nat (getDataLength f) /\
                        forall j, getDataLength f <= Z.of_nat j -> nth j (fdata f) 0 = 0)
      (List.filter (fun m => negb (is_error (km_id m)) && negb (identifier (km_id m) =? 0)) msgs)
      (firstn (rd_count r) (rd_frames r)).
Proof. exact read_only_own_bytes. Qed.
Print Assumptions C94_received_bytes_are_the_messages.
Theorem C94_reads_do_not_depend_on_history : forall res errno msgs s1 s2 out1 out2 r1 r2,
  iface_typed s1 -> iface_typed s2 -> frames_typed out1 -> frames_typed out2 ->
  recv_ok res msgs -> 0 < res -> Forall whole msgs ->
  read res errno msgs s1 out1 = Ret r1 -> read res errno msgs s2 out2 = Ret r2 ->
  firstn (rd_count r1) (rd_frames r1) = firstn (rd_count r2) (rd_frames r2).
Proof. exact read_history_free. Qed.
Print Assumptions C94_reads_do_not_depend_on_history.
Definition ex_classic : kmsg := KMsg (2 ^ 31 + 6) 3 [1; 2; 3; 0; 0; 0; 0; 0] [] 0.
Example C94_case : Forall whole [ex_secret; ex_classic] /\ recv_ok 2 [ex_secret; ex_classic] /\
  match do_calls [CallRead 1 0 [ex_secret] ex_out; CallRead 1 0 [ex_classic] ex_out] ex_if with
  | Ret ([_; RepRead r], _) => map fdata (firstn (rd_count r) (rd_frames r)) = [[1; 2; 3] ++ repeat 0 61]
  | _ => False
  end.
Proof.
  split; [|split; [|vm_compute; reflexivity]].
  - constructor; [right; reflexivity|]. constructor; [left; cbn; lia|constructor].
  - split; [lia|]. split; [|reflexivity]. repeat constructor; cbn; try lia; tauto.
Qed.

(** C95. Full statement: every frame sent over the bus is received as it was sent, that is [frame_eq 0 g f = Ret true] in
    the conclusion below without a condition. It holds exactly for frames of at most eight bytes and for frames of 24 bytes
    whose last twelve are zero. *)
Theorem C95_bus_transfer_iff : forall k s fs n w sent ks errno s2 out,
  iface_typed s -> frames_typed fs -> (1 <= n <= 4)%nat ->
  (forall i f, (i < n)%nat -> nth_error fs i = Some f -> identifier (fid f) <> 0 /\ fdlc f <= 15) ->
  write k s fs n = Ret w -> wr_sent w = Some sent ->
  Forall2 carried sent ks -> Forall kmsg_typed ks ->
  iface_typed s2 -> frames_typed out ->
  exists r, read (Z.of_nat n) errno ks s2 out = Ret r /\
    rd_result r = Success /\ rd_count r = n /\
    forall i f, (i < n)%nat -> nth_error fs i = Some f ->
    exists g, nth_error (rd_frames r) i = Some g /\
      (frame_eq 0 g f = Ret true <-> fdlc f <= 8 \/ (fdlc f = 12 /\ forall j, (12 <= j < 24)%nat -> nth j (fdata f) 0 = 0)).
Proof. exact over_the_bus. Qed.
Print Assumptions C95_bus_transfer_iff.
(** Example: frames of 8 and 12 bytes; the first arrives, the second (length code 9) does not. *)
Definition ex_carried : list kmsg :=
  [KMsg (2 ^ 31 + 0x123) 8 (repeat 7 8 ++ repeat 0 56) [] 0; KMsg (2 ^ 31 + 0x456) 12 (repeat 9 12 ++ repeat 0 52) [] 0].
Example C95_case : Forall kmsg_typed ex_carried /\
  match write (ex_kernel 2 0) ex_if ex_frames 2 with
  | Ret w => match wr_sent w with Some sent => Forall2 carried sent ex_carried | None => False end
  | UB => False
  end.
Proof.
  split; [repeat constructor; cbn; try lia; tauto|].
  assert (E : match write (ex_kernel 2 0) ex_if ex_frames 2 with
    | Ret w => wr_sent w = Some [CanFd (2 ^ 31 + 0x123) 8 (repeat 7 8 ++ repeat 0 56); CanFd (2 ^ 31 + 0x456) 9 (repeat 9 12 ++ repeat 0 52)]
    | UB => False end) by (vm_compute; reflexivity).
  destruct (write (ex_kernel 2 0) ex_if ex_frames 2) as [w|]; [|contradiction]. rewrite E.
  assert (TAIL : forall x a b i, (a <= i)%nat -> nth i (repeat x a ++ repeat 0 b) 0 = 0).
  { intros x a b i H. rewrite app_nth2; rewrite repeat_length; [|lia]. apply nth_repeat. }
  constructor; [|constructor; [|constructor]].
  - exists 8. split; [unfold valid_code; lia|]. split; [cbn; lia|]. split.
    { intros d V H. cbn [cf_len] in H. unfold iso_length in H. unfold valid_code in V. destruct (Z.leb_spec d 8); lia. }
    split; [reflexivity|]. split; [reflexivity|]. split; [reflexivity|]. split; [reflexivity|].
    intros i H. apply TAIL. change (iso_length 8) with 8 in H. lia.
  - exists 9. split; [unfold valid_code; lia|]. split; [cbn; lia|]. split.
    { intros d V H. cbn [cf_len] in H. unfold iso_length in H. unfold valid_code in V. destruct (Z.leb_spec d 8); lia. }
    split; [reflexivity|]. split; [reflexivity|]. split; [reflexivity|]. split; [reflexivity|].
    intros i H. apply TAIL. change (iso_length 9) with 12 in H. lia.
Qed.
Theorem C95_bus_transfer_refuted : exists f ks w sent r g,
  frame_typed 64 f /\ getDataLength f = 12 /\ identifier (fid f) = 0x456 /\
  write (ex_kernel 2 0) ex_if ex_frames 2 = Ret w /\ wr_sent w = Some sent /\ nth_error ex_frames 1 = Some f /\
  Forall2 carried sent ks /\ Forall kmsg_typed ks /\
  read 2 0 ks ex_if ex_out = Ret r /\ nth_error (rd_frames r) 1 = Some g /\ frame_eq 0 g f = Ret false.
Proof.
  destruct C95_case as [T C]. destruct (write (ex_kernel 2 0) ex_if ex_frames 2) as [w|]; [|contradiction].
  destruct (wr_sent w) as [sent|] eqn:S; [|contradiction].
  destruct (read 2 0 ex_carried ex_if ex_out) as [r|] eqn:R; [|vm_compute in R; discriminate].
  assert (Q : match read 2 0 ex_carried ex_if ex_out with
    | Ret r => match nth_error (rd_frames r) 1 with Some g => frame_eq 0 g (Frame 0xE0000456 (ex_bytes 9) 9 0) = Ret false | None => False end
    | UB => False end) by (vm_compute; reflexivity).
  rewrite R in Q. destruct (nth_error (rd_frames r) 1) as [g|] eqn:G; [|contradiction].
  exists (Frame 0xE0000456 (ex_bytes 9) 9 0), ex_carried, w, sent, r, g.
  split; [split; [reflexivity|cbn; lia]|]. split; [reflexivity|]. split; [reflexivity|]. split; [reflexivity|]. split; [exact S|].
  split; [reflexivity|]. split; [exact C|]. split; [exact T|]. split; [exact R|]. split; [exact G|exact Q].
Qed.
Print Assumptions C95_bus_transfer_refuted.
