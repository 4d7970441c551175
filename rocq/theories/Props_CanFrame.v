(** Properties C18-C30: CAN frames. [mtu] and [fm] are the template parameters of CAN::Frame.
    Specification vocabulary ([iso_length], [fd_length], [frames_equal], [wins_arbitration], ...) is in CanFrameSpec.v. *)
From Coq Require Import ZArith Bool List Lia.
From Verif Require Import Outcome CanFrameModel CanFrameSpec CanFrameProofs.
Import ListNotations.
Open Scope Z_scope.

(** C18. *)
Theorem C18_length_to_dlc_minimal : forall mtu n, (mtu <= 64)%nat -> 0 <= n <= Z.of_nat mtu ->
  valid_code (lengthToDlc mtu n) /\ n <= iso_length (lengthToDlc mtu n) /\
  (forall c, 0 <= c < lengthToDlc mtu n -> iso_length c < n).
Proof. exact lengthToDlc_spec. Qed.
Print Assumptions C18_length_to_dlc_minimal.

Theorem C18_length_to_dlc_saturates : forall mtu n, Z.of_nat mtu <= n ->
  lengthToDlc mtu n = lengthToDlc mtu (Z.of_nat mtu).
Proof. exact lengthToDlc_saturates. Qed.
Print Assumptions C18_length_to_dlc_saturates.

Theorem C18_table_reads_in_bounds : forall mtu n, (mtu <= 64)%nat -> 0 <= n ->
  (mtu < length length_to_dlc_lookup)%nat /\
  (n <= Z.of_nat mtu -> (Z.to_nat n < length length_to_dlc_lookup)%nat).
Proof. exact lengthToDlc_in_bounds. Qed.
Print Assumptions C18_table_reads_in_bounds.
Example C18_case : lengthToDlc 64 33 = 14 /\ iso_length 14 = 48 /\ iso_length 13 = 32 /\ lengthToDlc 8 200 = 8.
Proof. repeat split. Qed.

(** C19. *)
Theorem C19_dlc_to_length_is_iso : forall c, valid_code c -> dlcToLength c = iso_length c.
Proof. exact dlcToLength_iso. Qed.
Print Assumptions C19_dlc_to_length_is_iso.

Theorem C19_invalid_code_is_empty : forall c, 15 < c -> dlcToLength c = 0.
Proof. exact dlcToLength_invalid. Qed.
Print Assumptions C19_invalid_code_is_empty.

Theorem C19_code_roundtrip : forall c, valid_code c -> lengthToDlc 64 (dlcToLength c) = c.
Proof. exact code_roundtrip. Qed.
Print Assumptions C19_code_roundtrip.

Theorem C19_length_roundtrip : forall n, 0 <= n <= 64 ->
  n <= dlcToLength (lengthToDlc 64 n) /\ (dlcToLength (lengthToDlc 64 n) = n <-> fd_length n).
Proof. exact length_roundtrip. Qed.
Print Assumptions C19_length_roundtrip.

Theorem C19_length_to_dlc_monotone : forall mtu n m,
  (mtu <= 64)%nat -> 0 <= n <= m -> lengthToDlc mtu n <= lengthToDlc mtu m.
Proof. exact lengthToDlc_mono. Qed.
Print Assumptions C19_length_to_dlc_monotone.

Theorem C19_dlc_to_length_monotone : forall c d, 0 <= c -> c <= d -> d <= 15 -> dlcToLength c <= dlcToLength d.
Proof. exact dlcToLength_mono. Qed.
Print Assumptions C19_dlc_to_length_monotone.
Example C19_case : dlcToLength (lengthToDlc 64 13) = 16 /\ dlcToLength (lengthToDlc 64 20) = 20 /\ dlcToLength 200 = 0.
Proof. repeat split. Qed.

(** C20. Full statement: for every MTU up to 64. False for an MTU that is not a CAN FD length: *)
Theorem C20_set_data_length_within_mtu_refuted : exists mtu f n,
  (mtu <= 64)%nat /\ 0 <= n /\ frame_wf mtu f /\ Z.of_nat mtu < getDataLength (setDataLength mtu f n).
Proof.
  exists 10%nat, (frame_default 10), 10. repeat split; vm_compute; congruence || lia.
Qed.
Print Assumptions C20_set_data_length_within_mtu_refuted.

Theorem C20_set_data_length_within_mtu_iff : forall mtu f, (mtu <= 64)%nat ->
  ((forall n, 0 <= n -> getDataLength (setDataLength mtu f n) <= Z.of_nat mtu) <-> fd_length (Z.of_nat mtu)).
Proof. exact setDataLength_iff. Qed.
Print Assumptions C20_set_data_length_within_mtu_iff.

Theorem C20_set_data_length_gives_room : forall mtu f n, (mtu <= 64)%nat -> 0 <= n <= Z.of_nat mtu ->
  n <= getDataLength (setDataLength mtu f n).
Proof. exact setDataLength_room. Qed.
Print Assumptions C20_set_data_length_gives_room.
Example C20_case : fd_length 8 /\ fd_length 64 /\ getDataLength (setDataLength 64 (frame_default 64) 49) = 64.
Proof. split; [exists 8|split; [exists 15|]]; vm_compute; repeat split; congruence. Qed.

(** C21. Full statement: construction never writes out of bounds when the caller supplies enough bytes. False: *)
Theorem C21_construction_in_bounds_refuted : exists mtu id bytes dlc ts,
  (mtu <= 64)%nat /\ valid_code dlc /\ dlcToLength dlc <= Z.of_nat (length bytes) /\
  frame_make mtu id (Some bytes) dlc ts = UB.
Proof.
  exists 8%nat, 1, (repeat 0 64), 15, 0. split; [lia|]. split; [split; lia|]. split; vm_compute; congruence.
Qed.
Print Assumptions C21_construction_in_bounds_refuted.

(** Exactly when it does. *)
Theorem C21_construction_undefined_iff : forall mtu id bytes dlc ts, 0 <= dlc ->
  (frame_make mtu id (Some bytes) dlc ts = UB <->
   Z.of_nat mtu < dlcToLength dlc \/ Z.of_nat (length bytes) < dlcToLength dlc).
Proof. exact frame_make_ub_iff. Qed.
Print Assumptions C21_construction_undefined_iff.

(** And otherwise the frame holds exactly what was given. *)
Theorem C21_constructed_contents : forall mtu id bytes dlc ts f,
  0 <= dlc -> frame_make mtu id (Some bytes) dlc ts = Ret f ->
  fid f = id /\ fdlc f = dlc /\ fts f = ts /\ length (fdata f) = mtu /\
  (forall i, Z.of_nat i < dlcToLength dlc -> nth i (fdata f) 0 = nth i bytes 0) /\
  (forall i, dlcToLength dlc <= Z.of_nat i -> nth i (fdata f) 0 = 0).
Proof. exact frame_make_bytes. Qed.
Print Assumptions C21_constructed_contents.
(** Without a timestamp the frame's time is 0. *)
Theorem C21_no_timestamp_given : forall mtu id data dlc f, frame_make_no_ts mtu id data dlc = Ret f ->
  fts f = 0 /\ frame_make mtu id data dlc (fts f) = Ret f.
Proof.
  intros mtu id data dlc f H. assert (fts f = 0) as ->; [| split; [reflexivity | exact H]].
  unfold frame_make_no_ts, frame_make in H. destruct data as [bytes |].
  - destruct (copy_into (Z.to_nat (dlcToLength dlc)) bytes (repeat 0 mtu)) as [d |]; cbn [bind] in H; [| discriminate H].
    injection H as <-. reflexivity.
  - injection H as <-. reflexivity.
Qed.
Print Assumptions C21_no_timestamp_given.
Example C21_case : frame_make 8 7 (Some [1; 2; 3; 4]) 3 99 = Ret (Frame 7 [1; 2; 3; 0; 0; 0; 0; 0] 3 99).
Proof. reflexivity. Qed.

(** C22. *)
Theorem C22_null_data_gives_empty_frame : forall mtu id dlc ts,
  exists f, frame_make mtu id None dlc ts = Ret f /\
    fid f = id /\ fts f = ts /\ getDLC f = 0 /\ getDataLength f = 0 /\ fdata f = repeat 0 mtu.
Proof. exact frame_make_null. Qed.
Print Assumptions C22_null_data_gives_empty_frame.
Example C22_case : frame_make 8 7 None 15 99 = Ret (Frame 7 [0; 0; 0; 0; 0; 0; 0; 0] 0 99).
Proof. reflexivity. Qed.

(** C23. [ops_respect] (CanFrameSpec.v) lists what the caller must respect. *)
Theorem C23_frames_stay_well_formed : forall mtu ops,
  (mtu <= 64)%nat -> fd_length (Z.of_nat mtu) -> ops_respect mtu 0 ops ->
  exists fs, frame_run mtu [] ops = Ret fs /\
    (forall f, In f fs -> length (fdata f) = mtu /\ getDataLength f <= Z.of_nat mtu).
Proof. exact frame_history. Qed.
Print Assumptions C23_frames_stay_well_formed.
Definition C23_program : list frame_op :=
  [OpDefault; OpMake 5 (Some [9; 8; 7]) 3 10; OpCopy 1; OpSetLength 0 200; OpSetByte 0 7 4; OpAssign 1 0;
   OpCompare 7 1 0; OpCompare 0 2 1].
Example C23_case : fd_length 8 /\ ops_respect 8 0 C23_program /\
  frame_run 8 [] C23_program = Ret [Frame 0 [0;0;0;0;0;0;0;4] 8 0; Frame 0 [0;0;0;0;0;0;0;4] 8 0;
                                    Frame 5 [9;8;7;0;0;0;0;0] 3 10].
Proof.
  split; [exists 8; vm_compute; intuition congruence|]. split; [|reflexivity].
  cbn. repeat split; try lia; vm_compute; congruence.
Qed.

(** C24. *)
Theorem C24_equality_is_declared_equality : forall mtu fm a b,
  frame_wf mtu a -> frame_wf mtu b ->
  exists r, frame_eq fm a b = Ret r /\ (r = true <-> frames_equal fm a b).
Proof. exact frame_eq_spec. Qed.
Print Assumptions C24_equality_is_declared_equality.

Theorem C24_equality_is_equivalence : forall mtu fm a b c, frame_wf mtu a -> frame_wf mtu b -> frame_wf mtu c ->
  frame_eq fm a a = Ret true /\
  frame_eq fm a b = frame_eq fm b a /\
  (frame_eq fm a b = Ret true -> frame_eq fm b c = Ret true -> frame_eq fm a c = Ret true) /\
  (frame_ne fm a b = Ret true <-> frame_eq fm a b = Ret false) /\
  (frame_ne fm a b = Ret false <-> frame_eq fm a b = Ret true).
Proof. exact frame_eq_equivalence. Qed.
Print Assumptions C24_equality_is_equivalence.
Example C24_case :
  let a := Frame 5 [1; 2; 3] 2 10 in let b := Frame (5 + 2 ^ 31) [1; 2; 9] 2 77 in
  frame_wf 3 a /\ frame_wf 3 b /\ frame_eq 0 a b = Ret true /\ frame_eq 4 a b = Ret false.
Proof. cbn -[Z.pow]. repeat split; vm_compute; congruence. Qed.

(** C25. *)
Theorem C25_mask_selects_bits : forall fm x y,
  Z.land x (MaskIdWithFlags fm) = Z.land y (MaskIdWithFlags fm) <->
  (forall k, (0 <= k < 29 \/ (29 <= k < 32 /\ Z.testbit fm (k - 29) = true)) -> Z.testbit x k = Z.testbit y k).
Proof. exact masked_eq_spec. Qed.
Print Assumptions C25_mask_selects_bits.

(** Seen through ==: for frames that differ in nothing but identifiers. *)
Theorem C25_mask_in_equality : forall mtu fm d c t x y,
  frame_wf mtu (Frame x d c t) -> frame_wf mtu (Frame y d c t) ->
  (frame_eq fm (Frame x d c t) (Frame y d c t) = Ret true <->
   (forall k, (0 <= k < 29 \/ (29 <= k < 32 /\ Z.testbit fm (k - 29) = true)) -> Z.testbit x k = Z.testbit y k)).
Proof. exact frame_eq_ids. Qed.
Print Assumptions C25_mask_in_equality.

(** Bits of the mask above the third have no effect. *)
Theorem C25_high_mask_bits_ignored : forall fm a b, frame_eq fm a b = frame_eq (fm mod 8) a b.
Proof. exact frame_eq_mask_mod8. Qed.
Print Assumptions C25_high_mask_bits_ignored.
Example C25_case : MaskIdWithFlags 0 = 0x1FFFFFFF /\ MaskIdWithFlags 5 = 0xBFFFFFFF /\ MaskIdWithFlags 0xFF = 0xFFFFFFFF.
Proof. repeat split. Qed.

(** C26. *)
Theorem C26_priority_strict_weak_order : forall a b c,
  priorityHigherThan a a = false /\
  (priorityHigherThan a b = true -> priorityHigherThan b a = false) /\
  (priorityHigherThan a b = true -> priorityHigherThan b c = true -> priorityHigherThan a c = true) /\
  (priorityHigherThan a b = false -> priorityHigherThan b a = false ->
   priorityHigherThan b c = false -> priorityHigherThan c b = false ->
   priorityHigherThan a c = false /\ priorityHigherThan c a = false) /\
  (priorityHigherThan a b = false /\ priorityHigherThan b a = false <-> fid a mod 2 ^ 29 = fid b mod 2 ^ 29).
Proof. exact priority_strict_weak. Qed.
Print Assumptions C26_priority_strict_weak_order.

Theorem C26_operators_agree : forall a b,
  frame_gt a b = priorityHigherThan a b /\ frame_lt a b = priorityLowerThan a b /\
  frame_lt a b = frame_gt b a /\ priorityLowerThan a b = priorityHigherThan b a.
Proof. exact priority_operators. Qed.
Print Assumptions C26_operators_agree.

Theorem C26_equal_frames_unordered : forall mtu fm a b,
  frame_wf mtu a -> frame_wf mtu b -> frame_eq fm a b = Ret true ->
  priorityHigherThan a b = false /\ priorityHigherThan b a = false.
Proof. exact equal_frames_same_priority. Qed.
Print Assumptions C26_equal_frames_unordered.
Example C26_case : priorityHigherThan (Frame (2 ^ 31 + 3) [] 0 0) (Frame 4 [] 0 0) = true /\
  frame_lt (Frame 4 [] 0 0) (Frame 3 [] 0 0) = true.
Proof. split; reflexivity. Qed.

(** C27. *)
Theorem C27_priority_is_bus_arbitration : forall a b,
  priorityHigherThan a b = wins_arbitration (id_bits (fid a)) (id_bits (fid b)).
Proof. exact priority_is_arbitration. Qed.
Print Assumptions C27_priority_is_bus_arbitration.
Example C27_case : id_bits 5 = repeat false 26 ++ [true; false; true] /\
  wins_arbitration (id_bits 5) (id_bits 6) = true.
Proof. split; reflexivity. Qed.

(** C28. *)
Theorem C28_copy_reproduces : forall mtu f, length (fdata f) = mtu -> frame_copy mtu f = Ret f.
Proof. exact frame_copy_ok. Qed.
Print Assumptions C28_copy_reproduces.

Theorem C28_assign_reproduces : forall mtu self f,
  length (fdata f) = mtu -> length (fdata self) = mtu -> frame_assign mtu self f = Ret f.
Proof. exact frame_assign_ok. Qed.
Print Assumptions C28_assign_reproduces.

Theorem C28_assign_independent : forall mtu fs d s op fs1 fs2 j,
  Forall (frame_wf mtu) fs -> (d < length fs)%nat -> (s < length fs)%nat -> d <> s ->
  frame_step mtu fs (OpAssign d s) = Ret fs1 ->
  frame_step mtu fs1 op = Ret fs2 ->
  (match op with
   | OpAssign i _ | OpSetLength i _ | OpSetId i _ | OpSetByte i _ _ | OpSetTime i _ => i = j
   | _ => False end) ->
  forall k, k <> j -> (k < length fs)%nat ->
    nth_error fs2 k = nth_error fs1 k /\
    nth_error fs1 d = nth_error fs s /\ nth_error fs1 s = nth_error fs s.
Proof. exact assign_frame_independent. Qed.
Print Assumptions C28_assign_independent.
(** Whatever happens afterwards, the copy and its source are what the source was for as long as they are not written. *)
Theorem C28_copies_are_independent : forall mtu fs o d s ops fs',
  Forall (fun f => length (fdata f) = mtu) fs -> (s < length fs)%nat ->
  o = OpAssign d s /\ (d < length fs)%nat /\ d <> s \/ o = OpCopy s /\ d = length fs ->
  frame_run mtu fs (o :: ops) = Ret fs' ->
  (untouched d ops -> nth_error fs' d = nth_error fs s) /\ (untouched s ops -> nth_error fs' s = nth_error fs s).
Proof. exact copies_independent. Qed.
Print Assumptions C28_copies_are_independent.
Example C28_history_case :
  frame_run 2 [Frame 1 [4; 5] 1 6] [OpCopy 0; OpSetId 0 9; OpDefault; OpSetByte 0 1 8; OpCopy 1] =
    Ret [Frame 9 [4; 8] 1 6; Frame 1 [4; 5] 1 6; frame_default 2; Frame 1 [4; 5] 1 6] /\
  untouched 1 [OpSetId 0 9; OpDefault; OpSetByte 0 1 8; OpCopy 1].
Proof. split; [reflexivity|]. repeat constructor; discriminate. Qed.
Example C28_case : frame_assign 2 (Frame 1 [4; 5] 1 6) (Frame 2 [7; 8] 2 9) = Ret (Frame 2 [7; 8] 2 9).
Proof. reflexivity. Qed.

(** C29. *)
Theorem C29_fd_payload_table_minimal : forall n, (n < 64)%nat ->
  let len := nth n FD_PayloadLengthToFrameLength 0 + TailByteSizeBytes in
  fd_length len /\ Z.of_nat n + 1 <= len /\ (forall m, fd_length m -> Z.of_nat n + 1 <= m -> len <= m).
Proof. exact fd_payload_table. Qed.
Print Assumptions C29_fd_payload_table_minimal.

Theorem C29_classic_payload_table_minimal : forall n, (n < 8)%nat ->
  let len := nth n C2_PayloadLengthToFrameLength 0 + TailByteSizeBytes in
  classic_length len /\ len = Z.of_nat n + 1.
Proof. exact classic_payload_table. Qed.
Print Assumptions C29_classic_payload_table_minimal.

Theorem C29_tables_cover_all_payloads : length FD_PayloadLengthToFrameLength = FD_MaxFrameSizeBytes /\
  length C2_PayloadLengthToFrameLength = C2_MaxFrameSizeBytes.
Proof. exact table_sizes. Qed.
Print Assumptions C29_tables_cover_all_payloads.
Example C29_case : nth 24 FD_PayloadLengthToFrameLength 0 = 31 /\ nth 23 FD_PayloadLengthToFrameLength 0 = 23.
Proof. split; reflexivity. Qed.

(** C30. *)
Theorem C30_filter_equality : forall a b, filter_eq a b = true <-> flt_id a = flt_id b /\ flt_mask a = flt_mask b.
Proof. exact filter_eq_spec. Qed.
Print Assumptions C30_filter_equality.

Theorem C30_filter_copy : forall a, filter_copy a = a /\ filter_eq (filter_copy a) a = true.
Proof. exact filter_copy_spec. Qed.
Print Assumptions C30_filter_copy.
(** A filter made without arguments matches every identifier. *)
Theorem C30_default_filter_matches_all : flt_id filter_default = 0 /\ flt_mask filter_default = 0 /\
  forall id, Z.land id (flt_mask filter_default) = Z.land (flt_id filter_default) (flt_mask filter_default).
Proof. split; [reflexivity|]. split; [reflexivity|]. intros id. apply Z.land_0_r. Qed.
Print Assumptions C30_default_filter_matches_all.
Example C30_case : filter_eq (Filter 1 2) (Filter 1 3) = false /\ filter_eq filter_default (Filter 0 0) = true.
Proof. split; reflexivity. Qed.

(** C79. Full statement: [f = f] is defined and leaves f unchanged. False for every frame with a data buffer, because
    std::copy's precondition excludes a destination inside the source range. *)
Theorem C79_self_assignment_refuted : forall mtu f, (0 < mtu)%nat -> frame_self_assign mtu f = UB.
Proof. exact self_assign_ub. Qed.
Print Assumptions C79_self_assignment_refuted.
Theorem C79_self_assignment_partial : forall f, frame_self_assign 0 f = Ret f.
Proof. exact self_assign_empty. Qed.
Print Assumptions C79_self_assignment_partial.
Example C79_case : frame_self_assign 0 (Frame 1 [] 0 6) = Ret (Frame 1 [] 0 6) /\ frame_self_assign 2 (Frame 1 [4; 5] 1 6) = UB.
Proof. split; reflexivity. Qed.
