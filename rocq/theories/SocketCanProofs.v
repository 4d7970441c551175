(** Proofs about the SocketCAN interface. *)
From Coq Require Import ZArith Bool String List Lia.
From Verif Require Import Outcome ResultModel CanFrameModel CanFrameSpec CanFrameProofs PoolProofs SocketCanModel SocketCanSpec.
Import ListNotations.
Open Scope Z_scope.

Lemma filter_length_le : forall A (p : A -> bool) l, (length (List.filter p l) <= length l)%nat.
Proof. induction l; simpl; auto. destruct (p a); simpl; lia. Qed.

(** ** Bits *)
Lemma has_pow2 : forall x k, 0 <= k -> has x (2 ^ k) = Z.testbit x k.
Proof.
  intros x k Hk. unfold has.
  assert (E : Z.land x (2 ^ k) = if Z.testbit x k then 2 ^ k else 0).
  { apply Z.bits_inj'. intros n Hn. rewrite Z.land_spec, Z.pow2_bits_eqb by lia.
    destruct (Z.eqb_spec k n) as [->|N].
    - destruct (Z.testbit x n); simpl; [rewrite Z.pow2_bits_true by lia; auto | rewrite Z.bits_0; auto].
    - rewrite andb_false_r. destruct (Z.testbit x k); [rewrite Z.pow2_bits_false by lia; auto | rewrite Z.bits_0; auto]. }
  rewrite E. destruct (Z.testbit x k); [|reflexivity].
  pose proof (Z.pow_pos_nonneg 2 k). destruct (Z.eqb_spec (2 ^ k) 0); [lia|reflexivity].
Qed.

Lemma has_err : forall w, has w CAN_ERR_FLAG = is_error w.
Proof. intros. apply (has_pow2 w 29). lia. Qed.
Lemma has_mask : forall w, has w CAN_EFF_MASK = negb (identifier w =? 0).
Proof. intros. unfold has, identifier. change CAN_EFF_MASK with MaskExtID. rewrite land_MaskExtID. reflexivity. Qed.

(** ** write *)
Lemma fill_ok : forall f c, frame_typed 64 f -> length (cf_data c) = 64%nat ->
  fill f c = Ret (CanFd (Z.lor CAN_EFF_FLAG (Z.land (fid f) MaskExtID)) (fdlc f mod 256)
                        (payload f ++ skipn (Z.to_nat (getDataLength f)) (cf_data c))).
Proof.
  intros f c [L [D I]] LC. unfold fill, set_message_length, getDLC. cbn [cf_id cf_len cf_data].
  pose proof (dlcToLength_bound (fdlc f) D).
  rewrite copy_into_ret.
  - reflexivity.
  - unfold getDataLength. lia.
  - unfold getDataLength. lia.
Qed.

Lemma payload_length : forall f, frame_typed 64 f -> length (payload f) = Z.to_nat (getDataLength f).
Proof.
  intros f [L [D I]]. unfold payload. rewrite firstn_length. unfold getDataLength.
  pose proof (dlcToLength_bound (fdlc f) D). lia.
Qed.

Definition filled (f : frame) (c : canfd) : canfd :=
  CanFd (Z.lor CAN_EFF_FLAG (Z.land (fid f) MaskExtID)) (fdlc f mod 256)
        (payload f ++ skipn (Z.to_nat (getDataLength f)) (cf_data c)).

Lemma EFF_bits : forall x k, 0 <= k -> Z.testbit (Z.lor CAN_EFF_FLAG (Z.land x MaskExtID)) k =
  if k =? 31 then true else (k <? 29) && Z.testbit x k.
Proof.
  intros x k Hk. rewrite Z.lor_spec, Z.land_spec, testbit_MaskExtID by lia.
  change CAN_EFF_FLAG with (2 ^ 31). rewrite Z.pow2_bits_eqb by lia. rewrite (Z.eqb_sym 31 k).
  destruct (k =? 31) eqn:E; simpl; auto. apply andb_comm.
Qed.

Lemma EFF_range : forall x, 0 <= Z.lor CAN_EFF_FLAG (Z.land x MaskExtID) < 2 ^ 32.
Proof.
  intros x. rewrite land_MaskExtID. pose proof (Z.mod_pos_bound x (2 ^ 29) ltac:(lia)).
  assert (0 <= Z.lor CAN_EFF_FLAG (x mod 2 ^ 29)) by (apply Z.lor_nonneg; unfold CAN_EFF_FLAG; lia).
  split; auto. destruct (Z.eq_dec (Z.lor CAN_EFF_FLAG (x mod 2 ^ 29)) 0) as [->|]; [lia|].
  apply Z.log2_lt_pow2; [lia|]. rewrite Z.log2_lor by (unfold CAN_EFF_FLAG; lia).
  assert (Z.log2 (x mod 2 ^ 29) <= Z.log2 (2 ^ 29)) by (apply Z.log2_le_mono; lia).
  rewrite Z.log2_pow2 in H1 by lia. change (Z.log2 CAN_EFF_FLAG) with 31. lia.
Qed.

Lemma filled_typed : forall f c, frame_typed 64 f -> canfd_typed c -> canfd_typed (filled f c).
Proof.
  intros f c F [I [L D]]. unfold canfd_typed, filled. cbn [cf_id cf_len cf_data]. split; [apply EFF_range|split].
  - apply Z.mod_pos_bound. lia.
  - rewrite app_length, payload_length, skipn_length by auto. destruct F as [FL [FD FI]].
    pose proof (dlcToLength_bound (fdlc f) FD). unfold getDataLength. lia.
Qed.

Lemma nth_error_split_app : forall A (l : list A) i x, nth_error l i = Some x ->
  l = firstn i l ++ x :: skipn (S i) l.
Proof.
  induction l; intros [|i] x H; simpl in *; try discriminate.
  - inversion H; auto.
  - f_equal. apply IHl; auto.
Qed.

Fixpoint fill_all (fs : list frame) (cs : list canfd) : list canfd :=
  match fs, cs with
  | f :: fs', c :: cs' => filled f c :: fill_all fs' cs'
  | _, _ => cs
  end.

Lemma replace_nth_split : forall A i (v : A) l x, nth_error l i = Some x ->
  replace_nth i v l = firstn i l ++ v :: skipn (S i) l.
Proof. induction i; intros v [|h t] x H; simpl in *; try discriminate; auto. f_equal. eauto. Qed.

Lemma firstn_S_app : forall A (a b : list A) x i, length a = i -> firstn (S i) (a ++ x :: b) = a ++ [x].
Proof. intros A a b x i <-. induction a; simpl; auto. f_equal. auto. Qed.
Lemma skipn_S_app : forall A (a b : list A) x i, length a = i -> skipn (S i) (a ++ x :: b) = b.
Proof. intros A a b x i <-. induction a; simpl; auto. Qed.

Lemma fill_loop_ok : forall n i fs buf,
  Forall (frame_typed 64) fs -> Forall canfd_typed buf -> (i + n <= length fs)%nat -> (i + n <= length buf)%nat ->
  fill_loop n i fs buf = Ret (firstn i buf ++ fill_all (firstn n (skipn i fs)) (skipn i buf)).
Proof.
  induction n; intros i fs buf F C L1 L2; cbn [fill_loop].
  - rewrite firstn_skipn. auto.
  - destruct (nth_error fs i) as [f|] eqn:Ef; [|apply nth_error_None in Ef; lia].
    destruct (nth_error buf i) as [c|] eqn:Ec; [|apply nth_error_None in Ec; lia].
    assert (F1 : frame_typed 64 f) by (eapply Forall_forall; [exact F|eapply nth_error_In; eauto]).
    assert (C1 : canfd_typed c) by (eapply Forall_forall; [exact C|eapply nth_error_In; eauto]).
    rewrite fill_ok by (auto; apply C1). cbn [bind]. fold (filled f c).
    rewrite IHn; rewrite ?replace_nth_length; auto; try lia.
    2: { apply replace_nth_Forall; auto. apply filled_typed; auto. }
    f_equal.
    assert (S1 : skipn i fs = f :: skipn (S i) fs).
    { rewrite (nth_error_split_app _ _ _ _ Ef) at 1. rewrite skipn_app, firstn_length.
      replace (i - Nat.min i (length fs))%nat with 0%nat by lia. rewrite skipn_all2; [auto|rewrite firstn_length; lia]. }
    assert (S2 : skipn i buf = c :: skipn (S i) buf).
    { rewrite (nth_error_split_app _ _ _ _ Ec) at 1. rewrite skipn_app, firstn_length.
      replace (i - Nat.min i (length buf))%nat with 0%nat by lia. rewrite skipn_all2; [auto|rewrite firstn_length; lia]. }
    rewrite S1, S2. rewrite firstn_cons. cbn [fill_all].
    rewrite (replace_nth_split _ _ _ _ _ Ec).
    assert (Li : length (firstn i buf) = i) by (rewrite firstn_length; lia).
    rewrite firstn_S_app, skipn_S_app by auto.
    rewrite <- app_assoc. reflexivity.
Qed.

Lemma fill_loop_oob : forall n i fs buf, (length fs < i + n)%nat -> (i <= length fs)%nat -> fill_loop n i fs buf = UB.
Proof.
  induction n; intros i fs buf L L2; simpl; [lia|].
  destruct (nth_error fs i) as [f|] eqn:Ef; auto.
  assert (i < length fs)%nat by (apply nth_error_Some; congruence).
  destruct (nth_error buf i) as [c|]; auto.
  destruct (fill f c); simpl; auto. apply IHn; lia.
Qed.

Lemma frames_typed_each : forall fs, frames_typed fs -> Forall (frame_typed 64) fs.
Proof. intros fs [_ F]. eapply Forall_impl; [|exact F]. simpl. intros a H. apply H. Qed.

Lemma fill_all_typed : forall fs cs, Forall (frame_typed 64) fs -> Forall canfd_typed cs -> Forall canfd_typed (fill_all fs cs).
Proof.
  induction fs; intros [|c cs] F C; simpl; auto.
  inversion F; inversion C; subst. constructor; auto. apply filled_typed; auto.
Qed.
Lemma fill_all_length : forall fs cs, length (fill_all fs cs) = length cs.
Proof. induction fs; intros [|c cs]; simpl; auto. Qed.

Lemma Forall_firstn : forall A (P : A -> Prop) n l, Forall P l -> Forall P (firstn n l).
Proof. induction n; intros [|h t] F; simpl; auto. inversion F; subst. constructor; auto. Qed.
Lemma Forall_skipn : forall A (P : A -> Prop) n l, Forall P l -> Forall P (skipn n l).
Proof. induction n; intros [|h t] F; simpl; auto. inversion F; subst. auto. Qed.

(** The message buffers after filling them with [n] frames. *)
Definition buf_after (s : iface) (fs : list frame) (n : nat) : list canfd := fill_all (firstn n fs) (if_buf s).

Lemma write_eq : forall k s fs n, iface_typed s -> frames_typed fs -> (1 <= n <= 4)%nat ->
  let sent := firstn n (buf_after s fs n) in
  write k s fs n =
  Ret (let '(res, errno) := k sent in
       if res <=? 0
       then WriteOut (set_buf s (buf_after s fs n)) (if (errno =? ENOBUFS) || (errno =? EAGAIN) then BufferFull else Failure) 0 (Some sent)
       else if res <? Z.of_nat n
       then WriteOut (set_buf s (buf_after s fs n)) SuccessPartial res (Some sent)
       else WriteOut (set_buf s (buf_after s fs n)) Success res (Some sent)).
Proof.
  intros k s fs n [LB [TB LC]] TF Hn. unfold write.
  destruct (Nat.eqb_spec n 0); [lia|]. pose proof TF as [LF _].
  rewrite fill_loop_ok; auto using frames_typed_each; try lia.
  cbn [bind firstn skipn app]. fold (buf_after s fs n). destruct (k (firstn n (buf_after s fs n))) as [res errno].
  destruct (res <=? 0); auto. destruct (res <? Z.of_nat n); auto.
Qed.

Lemma write_sent : forall s fs n i f, iface_typed s -> frames_typed fs -> (1 <= n <= 4)%nat -> (i < n)%nat ->
  nth_error fs i = Some f ->
  exists c, nth_error (if_buf s) i = Some c /\ nth_error (firstn n (buf_after s fs n)) i = Some (filled f c).
Proof.
  intros s fs n i f [LB _] [LF _] Hn Hi Hf. unfold buf_after. revert LB LF.
  assert (G : forall i n fs buf, (i < n)%nat -> (n <= length buf)%nat -> (n <= length fs)%nat ->
    nth_error fs i = Some f -> exists c, nth_error buf i = Some c /\
    nth_error (firstn n (fill_all (firstn n fs) buf)) i = Some (filled f c)).
  { clear. induction i; intros [|n] [|g fs] [|c buf] Hi H1 H2 Hf; simpl in *; try lia; try discriminate.
    - inversion Hf; subst. eauto.
    - apply IHi; auto; lia. }
  intros LB LF. apply G; auto; lia.
Qed.

Lemma sent_length : forall s fs n, iface_typed s -> (n <= 4)%nat -> length (firstn n (buf_after s fs n)) = n.
Proof.
  intros s fs n [LB _] Hn. rewrite firstn_length. unfold buf_after. rewrite fill_all_length. lia.
Qed.

Lemma write_zero : forall k s fs, write k s fs 0 = Ret (WriteOut s BadArgument 0 None).
Proof. reflexivity. Qed.

Lemma write_result : forall k s fs n, iface_typed s -> frames_typed fs -> send_ok k -> (1 <= n <= 4)%nat ->
  exists w sent, write k s fs n = Ret w /\ wr_sent w = Some sent /\ length sent = n /\
    let accepted := fst (k sent) in
    let errno := snd (k sent) in
    (wr_result w = Success <-> accepted = Z.of_nat n) /\
    (wr_result w = SuccessPartial <-> 0 < accepted < Z.of_nat n) /\
    (wr_result w = BufferFull <-> accepted <= 0 /\ (errno = ENOBUFS \/ errno = EAGAIN)) /\
    (wr_result w = Failure <-> accepted <= 0 /\ errno <> ENOBUFS /\ errno <> EAGAIN) /\
    wr_count w = Z.max 0 accepted.
Proof.
  intros k s fs n TS TF K Hn. pose proof (write_eq k s fs n TS TF Hn) as E. cbv zeta in E.
  set (sent := firstn n (buf_after s fs n)) in *.
  assert (LS : length sent = n) by (apply sent_length; auto; lia).
  specialize (K sent). rewrite LS in K.
  eexists; exists sent. split; [exact E|].
  destruct (k sent) as [res errno]; simpl in *.
  unfold Success, SuccessPartial, BufferFull, Failure.
  destruct (Z.leb_spec res 0); [|destruct (Z.ltb_spec res (Z.of_nat n))]; simpl; split; auto; split; auto.
  - destruct (Z.eqb_spec errno ENOBUFS), (Z.eqb_spec errno EAGAIN); simpl; repeat split; try lia; intros; try lia; auto.
  - repeat split; try lia.
  - repeat split; try lia.
Qed.

Lemma write_keeps : forall k s fs n w, write k s fs n = Ret w ->
  if_stats (wr_if w) = if_stats s /\ if_ctl (wr_if w) = if_ctl s /\ if_index (wr_if w) = if_index s /\
  if_name (wr_if w) = if_name s /\ if_fd (wr_if w) = if_fd s.
Proof.
  intros k s fs n w H. unfold write in H. destruct (n =? 0)%nat; [inversion H; auto|].
  apply bind_ret_inv in H. destruct H as [b [_ H]].
  destruct (k (firstn n b)) as [res errno].
  destruct (res <=? 0); [|destruct (res <? Z.of_nat n)]; inversion H; subst; simpl; auto.
Qed.

Lemma write_typed : forall k s fs n, iface_typed s -> frames_typed fs -> (n <= 4)%nat ->
  exists w, write k s fs n = Ret w /\ iface_typed (wr_if w).
Proof.
  intros k s fs n TS TF Hn. destruct (Nat.eq_dec n 0) as [->|N].
  - rewrite write_zero. eexists; split; eauto.
  - eexists. split; [rewrite write_eq; auto; lia|].
    assert (T : iface_typed (set_buf s (buf_after s fs n))).
    { destruct TS as [LB [TB LC]]. unfold iface_typed, set_buf; simpl. unfold buf_after. rewrite fill_all_length.
      repeat split; auto. apply fill_all_typed; auto. apply Forall_firstn. apply frames_typed_each; auto. }
    destruct (k (firstn n (buf_after s fs n))) as [res errno].
    destruct (res <=? 0); [|destruct (res <? Z.of_nat n)]; auto.
Qed.

Lemma write_oob : forall k s fs n, frames_typed fs -> (4 < n)%nat -> write k s fs n = UB.
Proof.
  intros k s fs n [LF _] H. unfold write. destruct (Nat.eqb_spec n 0); [lia|].
  rewrite fill_loop_oob; auto; lia.
Qed.

(** ** read *)
Definition accepts (w : Z) : bool := negb (is_error w) && negb (identifier w =? 0).

Lemma u64_stamp : forall a b, u64 (u64 a * 1000000 + u64 b) = (a * 1000000 + b) mod 2 ^ 64.
Proof.
  intros. unfold u64. rewrite <- Z.add_mod_idemp_l by lia. rewrite Z.mul_mod_idemp_l by lia.
  rewrite Z.add_mod_idemp_l by lia. apply Z.add_mod_idemp_r. lia.
Qed.

Definition is_ts (c : cmsg) : bool := (cm_level c =? SOL_SOCKET) && (cm_type c =? SO_TIMESTAMP).
Lemma cmsg_loop_ts : forall cl cs ts d, 16 <= cl ->
  fst (cmsg_loop cl cs ts d) =
  match rev (map cm_tv (List.filter is_ts cs)) with
  | [] => ts
  | (sec, usec) :: _ => (sec * 1000000 + usec) mod 2 ^ 64
  end.
Proof.
  intros cl cs. induction cs as [|c cs IH]; intros ts d H; simpl; auto.
  unfold is_ts at 1. destruct (cm_level c =? SOL_SOCKET); simpl; auto.
  destruct (cm_type c =? SO_TIMESTAMP) eqn:E; simpl.
  - replace (sizeof_timeval <=? cl) with true by (symmetry; apply Z.leb_le; unfold sizeof_timeval; lia).
    rewrite IH by auto. rewrite u64_stamp. destruct (cm_tv c) as [sec usec]; simpl.
    destruct (rev (map cm_tv (List.filter is_ts cs))) as [|[a b] l]; auto.
  - destruct ((cm_type c =? SO_RXQ_OVFL) && (4 <=? cm_len c)); auto.
Qed.

Lemma cmsg_loop_drop : forall cl cs ts d, (cs <> [] -> 16 <= cl) -> 0 <= d < 2 ^ 64 ->
  snd (cmsg_loop cl cs ts d) = u64 (d + fold_right (fun c a => cm_u32 c + a) 0 (List.filter is_drop cs)).
Proof.
  intros cl cs. induction cs as [|c cs IH]; intros ts d H R; simpl.
  - unfold u64. rewrite Z.mod_small; lia.
  - assert (C : 16 <= cl) by (apply H; discriminate). unfold is_drop at 1.
    destruct (cm_level c =? SOL_SOCKET); simpl; [|apply IH; auto].
    destruct (Z.eqb_spec (cm_type c) SO_TIMESTAMP) as [E|E]; simpl.
    + replace (sizeof_timeval <=? cl) with true by (symmetry; apply Z.leb_le; unfold sizeof_timeval; lia).
      rewrite E. simpl. apply IH; auto.
    + destruct ((cm_type c =? SO_RXQ_OVFL) && (4 <=? cm_len c)); simpl; [|apply IH; auto].
      rewrite IH; auto; [|apply Z.mod_pos_bound; lia].
      unfold u64. rewrite Z.add_mod_idemp_l by lia. f_equal. lia.
Qed.

Lemma stamp_loop : forall m d, kmsg_typed m -> fst (cmsg_loop (km_controllen m) (km_cmsgs m) 0 d) = stamp m.
Proof.
  intros m d [_ [_ [_ C]]]. unfold stamp, timestamps.
  destruct (km_cmsgs m) as [|c cs] eqn:E; [reflexivity|].
  rewrite cmsg_loop_ts; [reflexivity|]. apply C. discriminate.
Qed.

(** Statistics after one message, apart from the total. *)
Definition stat_step (st : stats) (m : kmsg) : stats :=
  let st1 := set_dropped (snd (cmsg_loop (km_controllen m) (km_cmsgs m) 0 (rx_dropped st))) st in
  if is_error (km_id m) then count_error (km_id m) st1 else st1.

(** The frame delivered for message [m] received into a slot that held [old]. *)
Definition deliver (mc : kmsg * canfd) : frame :=
  let '(m, old) := mc in
  let n := Z.to_nat (dlcToLength (km_len m)) in
  Frame (km_id m) (firstn n (cf_data (receive_into m old)) ++ repeat 0 (64 - n)) (km_len m) (stamp m).

Definition accepted (l : list (kmsg * canfd)) : list (kmsg * canfd) := List.filter (fun mc => accepts (km_id (fst mc))) l.

Lemma receive_typed : forall m c, kmsg_typed m -> canfd_typed c -> canfd_typed (receive_into m c).
Proof.
  intros m c [I [L [B _]]] [_ [_ D]]. unfold canfd_typed, receive_into; simpl. repeat split; try lia.
  rewrite app_length, skipn_length. lia.
Qed.

Lemma firstn_app_exact : forall A (a b : list A) n, length a = n -> firstn n (a ++ b) = a.
Proof. intros. subst. rewrite firstn_app, Nat.sub_diag, firstn_all. simpl. apply app_nil_r. Qed.
Lemma skipn_app_exact : forall A (a b : list A) n, length a = n -> skipn n (a ++ b) = b.
Proof. intros. subst. rewrite skipn_app, Nat.sub_diag, skipn_all. auto. Qed.

Lemma skipn_plus : forall A (l : list A) n m, skipn n (skipn m l) = skipn (n + m) l.
Proof.
  intros A l n m. revert l. induction m; intros l; simpl; [rewrite Nat.add_0_r; auto|].
  rewrite Nat.add_succ_r. destruct l; simpl; [apply skipn_nil|auto].
Qed.

Lemma skipn_nth : forall A (l : list A) i x, nth_error l i = Some x -> skipn i l = x :: skipn (S i) l.
Proof.
  intros A l i x H. pose proof (nth_error_split_app _ _ _ _ H) as E.
  assert (i < length l)%nat by (apply nth_error_Some; congruence).
  rewrite E at 1. apply skipn_app_exact. rewrite firstn_length. lia.
Qed.

Lemma read_loop_eq : forall msgs i buf olds st out k,
  Forall kmsg_typed msgs -> Forall canfd_typed olds -> (length msgs <= length olds)%nat ->
  skipn i buf = receive_all msgs olds ->
  length out = 4%nat -> Forall (fun f => length (fdata f) = 64%nat) out ->
  (k + length msgs <= 4)%nat ->
  let acc := accepted (combine msgs olds) in
  read_loop msgs i buf st out k =
  Ret (fold_left stat_step msgs st, firstn k out ++ map deliver acc ++ skipn (k + length acc) out, (k + length acc)%nat).
Proof.
  induction msgs as [|m msgs IH]; intros i buf olds st out k TM TO LO SB LF FO LK; cbv zeta.
  - cbn [read_loop combine accepted List.filter map List.length app fold_left]. rewrite Nat.add_0_r, firstn_skipn. auto.
  - destruct olds as [|old olds]; [simpl in LO; lia|]. cbn [read_loop combine fold_left].
    simpl in SB, LO, LK. inversion TM; inversion TO; subst.
    assert (Ec : nth_error buf i = Some (receive_into m old)).
    { assert (Hi : (i < length buf)%nat).
      { destruct (le_lt_dec (length buf) i) as [Hge|]; auto. rewrite skipn_all2 in SB by lia. discriminate. }
      destruct (nth_error buf i) as [c|] eqn:E; [|apply nth_error_None in E; lia].
      rewrite (skipn_nth _ _ _ _ E) in SB. inversion SB. auto. }
    rewrite Ec.
    assert (SB' : skipn (S i) buf = receive_all msgs olds).
    { rewrite (skipn_nth _ _ _ _ Ec) in SB. inversion SB. auto. }
    destruct (nth_error out k) as [fo|] eqn:Eo; [|apply nth_error_None in Eo; lia].
    rewrite has_err, has_mask. cbn [cf_id receive_into].
    pose proof (stamp_loop m (rx_dropped st) H1) as TS.
    destruct (cmsg_loop (km_controllen m) (km_cmsgs m) 0 (rx_dropped st)) as [ts d] eqn:EL. simpl in TS. subst ts.
    unfold stat_step at 2. rewrite EL. cbn [snd].
    change (accepted ((m, old) :: combine msgs olds)) with
      (if accepts (km_id m) then (m, old) :: accepted (combine msgs olds) else accepted (combine msgs olds)).
    assert (EA : accepts (km_id m) = negb (is_error (km_id m)) && negb (identifier (km_id m) =? 0)) by reflexivity.
    rewrite EA. clear EA.
    destruct (is_error (km_id m)) eqn:Ee; cbn [negb andb].
    + rewrite IH with (olds := olds); first [reflexivity | lia | auto].
    + destruct (identifier (km_id m) =? 0) eqn:Ez; cbn [negb andb].
      * rewrite IH with (olds := olds); first [reflexivity | lia | auto].
      * pose proof H1 as [HI [HL [HB _]]]. pose proof H5 as [_ [_ HD]].
        pose proof (dlcToLength_bound (km_len m) ltac:(lia)) as LB.
        change (get_message_length (receive_into m old)) with (km_len m).
        assert (LD : length (cf_data (receive_into m old)) = 64%nat)
          by (apply (receive_typed m old H1 H5)).
        unfold frame_make. rewrite copy_into_ret; [|lia|rewrite repeat_length; unfold mtu; lia].
        cbn [bind]. rewrite skipn_repeat.
        rewrite frame_assign_ok.
        -- cbn [bind].
           set (F := Frame (km_id m) _ (km_len m) (stamp m)).
           assert (EF : F = deliver (m, old)) by reflexivity.
           rewrite IH with (olds := olds); auto; try lia.
           ++ rewrite EF. cbn [map List.length].
              set (acc := accepted (combine msgs olds)). f_equal. f_equal; [f_equal|lia].
              rewrite (replace_nth_split _ _ _ _ _ Eo).
              assert (Lk : length (firstn k out) = k) by (rewrite firstn_length; lia).
              rewrite firstn_S_app by auto.
              rewrite <- app_assoc. f_equal. cbn [app]. f_equal. f_equal.
              rewrite Nat.add_succ_r. change (S k + length acc)%nat with (S (k + length acc)).
              rewrite skipn_app, Lk. rewrite (skipn_all2 (firstn k out)) by lia.
              replace (S (k + length acc) - k)%nat with (S (length acc)) by lia. rewrite skipn_cons. cbn [app].
              rewrite skipn_plus. f_equal. lia.
           ++ rewrite replace_nth_length. auto.
           ++ apply replace_nth_Forall; auto. subst F; cbn [fdata]. rewrite app_length, firstn_length, repeat_length. unfold mtu. lia.
        -- cbn [fdata]. rewrite app_length, firstn_length, repeat_length. unfold mtu. lia.
        -- eapply Forall_forall in FO; [|eapply nth_error_In; exact Eo]. exact FO.
Qed.

Lemma receive_all_length : forall ms buf, length (receive_all ms buf) = length buf.
Proof. induction ms; intros [|c buf]; simpl; auto. Qed.
Lemma receive_ctl_length : forall ms ctl, length (receive_ctl ms ctl) = length ctl.
Proof. induction ms; intros [|c ctl]; simpl; auto. Qed.
Lemma receive_all_typed : forall ms buf, Forall kmsg_typed ms -> Forall canfd_typed buf -> Forall canfd_typed (receive_all ms buf).
Proof.
  induction ms; intros [|c buf] M B; simpl; auto. inversion M; inversion B; subst.
  constructor; auto. apply receive_typed; auto.
Qed.

Lemma frames_typed_data : forall fs, frames_typed fs -> Forall (fun f => length (fdata f) = 64%nat) fs.
Proof. intros fs [_ F]. eapply Forall_impl; [|exact F]. simpl. intros a H. apply H. Qed.

Lemma read_eq : forall res errno msgs s out, iface_typed s -> frames_typed out -> recv_ok res msgs ->
  let acc := accepted (combine msgs (if_buf s)) in
  read res errno msgs s out =
  Ret (if res <=? 0
       then ReadOut s (if (res <? 0) && (errno =? EWOULDBLOCK) then SuccessNothing else UnknownInternalError) 0 out
       else ReadOut (Iface (if_index s) (if_name s) (if_fd s)
                           (add_total (Z.of_nat (length acc)) (fold_left stat_step msgs (if_stats s)))
                           (receive_all msgs (if_buf s)) (receive_ctl msgs (if_ctl s)))
                    Success (length acc) (map deliver acc ++ skipn (length acc) out)).
Proof.
  intros res errno msgs s out [LB [TB LC]] TF [R [TM EQ]]. cbv zeta. unfold read.
  destruct (Z.leb_spec res 0); auto. specialize (EQ H).
  rewrite (firstn_all2 (n := Z.to_nat res)) by lia.
  rewrite (firstn_all2 (n := RxFramesLen)) by (unfold RxFramesLen; lia).
  rewrite read_loop_eq with (olds := if_buf s); auto using frames_typed_data; try lia; try apply TF.
  cbn [bind firstn app Nat.add]. do 3 f_equal.
  rewrite Z.mod_small; auto. split; [lia|].
  assert (length (accepted (combine msgs (if_buf s))) <= 4)%nat; [|lia].
  unfold accepted. pose proof (filter_length_le _ (fun mc => accepts (km_id (fst mc))) (combine msgs (if_buf s))).
  rewrite combine_length in H0. lia.
Qed.

Lemma deliver_typed : forall m c, kmsg_typed m -> canfd_typed c -> frame_typed 64 (deliver (m, c)) /\ fdlc (deliver (m, c)) < 256.
Proof.
  intros m c M C. pose proof (receive_typed m c M C) as [_ [_ RD]]. destruct M as [I [L _]].
  pose proof (dlcToLength_bound (km_len m) ltac:(lia)). unfold frame_typed, deliver. cbn [fid fdata fdlc fts].
  rewrite app_length, firstn_length, repeat_length, RD. lia.
Qed.

Lemma accepted_map : forall ms buf, (length ms <= length buf)%nat ->
  map fst (accepted (combine ms buf)) = List.filter (fun m => accepts (km_id m)) ms.
Proof.
  induction ms; intros [|c buf] L; simpl in *; try lia; auto.
  destruct (accepts (km_id a)); simpl; rewrite IHms; auto; lia.
Qed.

Lemma accepted_in : forall ms buf m c, In (m, c) (accepted (combine ms buf)) -> In m ms /\ In c buf.
Proof.
  intros ms buf m c H. unfold accepted in H. apply filter_In in H. destruct H as [H _].
  split; [eapply in_combine_l; eauto|eapply in_combine_r; eauto].
Qed.

Lemma stat_step_total : forall ms st, rx_total (fold_left stat_step ms st) = rx_total st.
Proof.
  induction ms; intros st; simpl; auto. rewrite IHms. unfold stat_step.
  destruct (is_error (km_id a)); reflexivity.
Qed.

(** ** Results of read *)
Lemma nth_firstn_lt : forall A (l : list A) n i d, (i < n)%nat -> nth i (firstn n l) d = nth i l d.
Proof. induction l; intros [|n] [|i] d H; simpl; auto; try lia. apply IHl; lia. Qed.

Lemma deliver_frame : forall m c, kmsg_typed m -> canfd_typed c -> delivered_frame m (deliver (m, c)).
Proof.
  intros m c M C. pose proof (receive_typed m c M C) as [_ [_ RD]]. destruct M as [I [L _]].
  unfold delivered_frame, deliver. cbn [fid fdata fdlc fts]. repeat split; auto.
  unfold getDataLength. cbn [fdlc]. intros i Hi Hb.
  pose proof (dlcToLength_bound (km_len m) ltac:(lia)).
  rewrite app_nth1 by (rewrite firstn_length, RD; lia).
  rewrite nth_firstn_lt by lia. unfold receive_into; cbn [cf_data]. apply app_nth1; auto.
Qed.

Lemma read_negative : forall res errno msgs s out, res <= 0 ->
  exists r, read res errno msgs s out = Ret r /\ rd_count r = 0%nat /\ rd_frames r = out /\ rd_if r = s /\
    (rd_result r = SuccessNothing <-> res < 0 /\ errno = EWOULDBLOCK) /\
    (rd_result r = UnknownInternalError <-> ~ (res < 0 /\ errno = EWOULDBLOCK)).
Proof.
  intros res errno msgs s out H. unfold read. destruct (Z.leb_spec res 0); [|lia].
  eexists; split; [reflexivity|]. cbn [rd_count rd_frames rd_if rd_result]. do 3 (split; auto).
  unfold SuccessNothing, UnknownInternalError.
  destruct (Z.ltb_spec res 0), (Z.eqb_spec errno EWOULDBLOCK); simpl; split; split; intros; try lia; tauto.
Qed.

Lemma read_positive : forall res errno msgs s out, iface_typed s -> frames_typed out -> recv_ok res msgs -> 0 < res ->
  exists r, read res errno msgs s out = Ret r /\ rd_result r = Success /\
    let good := List.filter (fun m => negb (is_error (km_id m)) && negb (identifier (km_id m) =? 0)) msgs in
    rd_count r = length good /\ (rd_count r <= 4)%nat /\ length (rd_frames r) = 4%nat /\
    Forall2 delivered_frame good (firstn (rd_count r) (rd_frames r)) /\
    skipn (rd_count r) (rd_frames r) = skipn (rd_count r) out.
Proof.
  intros res errno msgs s out TS TF RO P. rewrite read_eq by auto.
  destruct (Z.leb_spec res 0); [lia|]. eexists; split; [reflexivity|]. cbn [rd_result rd_count rd_frames].
  split; auto. pose proof TS as [LB [TB LC]]. pose proof RO as [R [TM EQ]]. specialize (EQ P).
  set (acc := accepted (combine msgs (if_buf s))).
  assert (LA : length acc = length (List.filter (fun m => accepts (km_id m)) msgs)).
  { rewrite <- (accepted_map msgs (if_buf s)) by lia. rewrite map_length. reflexivity. }
  assert (L4 : (length acc <= 4)%nat).
  { rewrite LA. pose proof (filter_length_le _ (fun m => accepts (km_id m)) msgs). lia. }
  cbv zeta. split; [exact LA|]. split; auto. split.
  - rewrite app_length, map_length, skipn_length. destruct TF as [LF _]. lia.
  - split.
    + rewrite firstn_app_exact by (apply map_length).
      change (List.filter (fun m => negb (is_error (km_id m)) && negb (identifier (km_id m) =? 0)) msgs)
        with (List.filter (fun m => accepts (km_id m)) msgs).
      rewrite <- (accepted_map msgs (if_buf s)) by lia. fold acc.
      assert (Q : forall mc, In mc acc -> delivered_frame (fst mc) (deliver mc)).
      { intros [m c] H0. apply accepted_in in H0. destruct H0. apply deliver_frame; [eapply Forall_forall in TM|eapply Forall_forall in TB]; eauto. }
      clear -Q. induction acc; simpl; constructor; [apply Q; left; auto|apply IHacc; intros; apply Q; right; auto].
    + apply skipn_app_exact. apply map_length.
Qed.

Lemma read_typed : forall res errno msgs s out, iface_typed s -> frames_typed out -> recv_ok res msgs ->
  exists r, read res errno msgs s out = Ret r /\ iface_typed (rd_if r) /\ frames_typed (rd_frames r).
Proof.
  intros res errno msgs s out TS TF RO. rewrite read_eq by auto.
  pose proof TS as [LB [TB LC]]. pose proof RO as [R [TM EQ]].
  destruct (Z.leb_spec res 0); eexists; split; try reflexivity; cbn [rd_if rd_frames]; auto.
  specialize (EQ H). split.
  - unfold iface_typed. cbn [if_buf if_ctl]. rewrite receive_all_length, receive_ctl_length.
    repeat split; auto. apply receive_all_typed; auto.
  - destruct TF as [LF FF]. set (acc := accepted (combine msgs (if_buf s))).
    assert (LA : (length acc <= 4)%nat).
    { unfold acc, accepted. pose proof (filter_length_le _ (fun mc => accepts (km_id (fst mc))) (combine msgs (if_buf s))).
      rewrite combine_length in H0. lia. }
    split.
    + rewrite app_length, map_length, skipn_length. lia.
    + apply Forall_app. split; [|apply Forall_skipn; auto].
      apply Forall_forall. intros f Hf. apply in_map_iff in Hf. destruct Hf as [[m c] [<- Hin]].
      apply accepted_in in Hin. destruct Hin.
      apply deliver_typed; [eapply Forall_forall in TM|eapply Forall_forall in TB]; eauto.
Qed.

(** ** Frames on the wire *)
Lemma filled_wire : forall f c, frame_typed 64 f -> fdlc f < 256 ->
  let m := filled f c in
  is_extended (cf_id m) = true /\ is_error (cf_id m) = false /\ is_remote (cf_id m) = false /\
  identifier (cf_id m) = identifier (fid f) /\ cf_len m = fdlc f /\
  firstn (Z.to_nat (getDataLength f)) (cf_data m) = payload f.
Proof.
  intros f c F D. pose proof F as [FL [FD FI]]. cbv zeta. unfold filled. cbn [cf_id cf_len cf_data].
  unfold is_extended, is_error, is_remote, identifier. rewrite !EFF_bits by lia. cbn [Z.eqb Z.ltb andb].
  repeat split; auto.
  - apply Z.bits_inj'. intros k Hk. destruct (Z_lt_ge_dec k 29).
    + rewrite !Z.mod_pow2_bits_low by lia. rewrite EFF_bits by lia.
      destruct (Z.eqb_spec k 31); [lia|]. destruct (Z.ltb_spec k 29); [auto|lia].
    + rewrite !Z.mod_pow2_bits_high by lia. auto.
  - apply Z.mod_small. lia.
  - apply firstn_app_exact. apply payload_length; auto.
Qed.

Lemma dlc_is_length_iff : forall c, 0 <= c < 256 -> (dlcToLength c = c <-> c <= 8).
Proof.
  intros c H. destruct (Z_lt_ge_dec c 16).
  - rewrite dlcToLength_iso by (unfold valid_code; lia). unfold iso_length.
    repeat match goal with |- context [?a <=? ?b] => destruct (Z.leb_spec a b) end;
    repeat match goal with |- context [?a =? ?b] => destruct (Z.eqb_spec a b) end; lia.
  - rewrite dlcToLength_invalid by lia. lia.
Qed.

Lemma code_le_length : forall c, 0 <= c <= 15 -> c <= dlcToLength c.
Proof.
  intros c H. rewrite dlcToLength_iso by (unfold valid_code; lia). unfold iso_length.
  repeat match goal with |- context [?a <=? ?b] => destruct (Z.leb_spec a b) end;
  repeat match goal with |- context [?a =? ?b] => destruct (Z.eqb_spec a b) end; lia.
Qed.

Lemma firstn_firstn_le : forall A (l : list A) n m, (n <= m)%nat -> firstn n (firstn m l) = firstn n l.
Proof. intros. rewrite firstn_firstn. f_equal. lia. Qed.

Lemma filled_wire_payload : forall f c, frame_typed 64 f -> fdlc f <= 15 ->
  wire_payload (filled f c) = firstn (Z.to_nat (fdlc f)) (payload f).
Proof.
  intros f c F D. destruct (filled_wire f c F ltac:(lia)) as [_ [_ [_ [_ [L P]]]]].
  unfold wire_payload. rewrite L, <- P. symmetry. apply firstn_firstn_le.
  destruct F as [_ [F0 _]]. pose proof (code_le_length (fdlc f) ltac:(lia)). unfold getDataLength. lia.
Qed.

Lemma write_wire : forall k s fs n w, iface_typed s -> frames_typed fs -> (1 <= n <= 4)%nat -> write k s fs n = Ret w ->
  exists sent, wr_sent w = Some sent /\ length sent = n /\
  forall i f, (i < n)%nat -> nth_error fs i = Some f ->
  exists m, nth_error sent i = Some m /\
    is_extended (cf_id m) = true /\ is_error (cf_id m) = false /\ is_remote (cf_id m) = false /\
    identifier (cf_id m) = identifier (fid f) /\ cf_len m = fdlc f /\
    firstn (Z.to_nat (getDataLength f)) (cf_data m) = payload f.
Proof.
  intros k s fs n w TS TF Hn H. rewrite write_eq in H by auto.
  exists (firstn n (buf_after s fs n)). split; [|split].
  - destruct (k (firstn n (buf_after s fs n))) as [res e].
    destruct (res <=? 0); [|destruct (res <? Z.of_nat n)]; inversion H; reflexivity.
  - apply sent_length; auto; lia.
  - intros i f Hi Hf. destruct (write_sent s fs n i f TS TF Hn Hi Hf) as [c [_ E]].
    exists (filled f c). split; auto. destruct TF as [_ FF]. eapply Forall_forall in FF; [|eapply nth_error_In; eauto].
    destruct FF. apply filled_wire; auto.
Qed.

Lemma write_wire_length : forall k s fs n w sent i f m, iface_typed s -> frames_typed fs -> (1 <= n <= 4)%nat ->
  write k s fs n = Ret w -> wr_sent w = Some sent -> (i < n)%nat -> nth_error fs i = Some f -> nth_error sent i = Some m ->
  (cf_len m = getDataLength f <-> fdlc f <= 8) /\
  (fdlc f <= 15 -> wire_payload m = firstn (Z.to_nat (fdlc f)) (payload f)).
Proof.
  intros k s fs n w sent i f m TS TF Hn H HS Hi Hf Hm.
  rewrite write_eq in H by auto.
  assert (E : sent = firstn n (buf_after s fs n)).
  { destruct (k (firstn n (buf_after s fs n))) as [res e].
    destruct (res <=? 0); [|destruct (res <? Z.of_nat n)]; inversion H; subst w; simpl in HS; congruence. }
  subst sent. destruct (write_sent s fs n i f TS TF Hn Hi Hf) as [c [_ E]]. rewrite E in Hm. inversion Hm; subst m.
  destruct TF as [_ FF]. eapply Forall_forall in FF; [|eapply nth_error_In; eauto]. destruct FF as [F1 F2].
  split; [|intros; apply filled_wire_payload; auto].
  destruct (filled_wire f c F1 F2) as [_ [_ [_ [_ [L _]]]]]. rewrite L. unfold getDataLength.
  rewrite <- (dlc_is_length_iff (fdlc f)) by (destruct F1 as [_ [? _]]; lia). split; congruence.
Qed.

(** ** Loopback *)
Lemma filled_accept : forall f c, frame_typed 64 f -> fdlc f < 256 -> identifier (fid f) <> 0 -> accepts (cf_id (filled f c)) = true.
Proof.
  intros f c F D N. destruct (filled_wire f c F D) as [_ [E [_ [I _]]]]. unfold accepts. rewrite E, I.
  destruct (Z.eqb_spec (identifier (fid f)) 0); [contradiction|reflexivity].
Qed.
