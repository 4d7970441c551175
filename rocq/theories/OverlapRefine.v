(** A call run alone in memory is the call of the sequential models. *)
From Coq Require Import ZArith Bool String List Lia Arith.
From Verif Require Import Outcome ResultModel CInt SatMathModel TimeModel CanFrameModel CanFrameProofs SocketCanModel SocketCanSpec
  SocketCanProofs GroupModel GroupProofs PollModel PollProofs OverlapModel OverlapSpec OverlapProofs.
Import ListNotations.
Open Scope Z_scope.

Lemma upd_same : forall l v m, upd l v m l = v.
Proof. intros. unfold upd. destruct (loc_eq_dec l l); congruence. Qed.
Lemma upd_other : forall l v m x, x <> l -> upd l v m x = m x.
Proof. intros l v m x D. unfold upd. destruct (loc_eq_dec x l); congruence. Qed.

Definition slots (m : memory) (i : nat) (b : list canfd) : Prop := forall k c, nth_error b k = Some c -> m (Slot i k) = VSlot c.
Definition ctls (m : memory) (i : nat) (z : list Z) : Prop := forall k x, nth_error z k = Some x -> exists cs, m (Ctl i k) = VCtl x cs.

(** ** write *)
Lemma fill_run : forall n i k fs buf b m next, length buf = RxFramesLen -> slots m i buf -> fill_loop n k fs buf = Ret b ->
  exists m', run (fill_prog i n k fs next) m = run next m' /\ slots m' i b /\ length b = RxFramesLen /\
    forall l, (forall j, l <> Slot i j) -> m' l = m l.
Proof.
  induction n as [|n IH]; intros i k fs buf b m next L H E; cbn [fill_loop fill_prog] in *.
  - injection E as <-. exists m. auto.
  - destruct (nth_error fs k) as [f|]; [|discriminate].
    destruct (nth_error buf k) as [c|] eqn:Ek; [|discriminate].
    assert (Lk : (k < length buf)%nat) by (apply nth_error_Some; congruence).
    replace (k <? RxFramesLen)%nat with true by (symmetry; apply Nat.ltb_lt; lia).
    unfold with_slot. cbn [run]. rewrite (H k c Ek).
    destruct (SocketCanModel.fill f c) as [c'|]; [|discriminate]. cbn [bind after run] in *.
    destruct (IH i (S k) fs (replace_nth k c' buf) b (upd (Slot i k) (VSlot c') m) next) as (m' & R & S & Lb & O).
    + now rewrite replace_nth_length.
    + intros j d Ej. rewrite nth_error_replace_nth in Ej. destruct (Nat.eqb_spec j k) as [->|D].
      * rewrite Ek in Ej. injection Ej as <-. now rewrite upd_same.
      * rewrite upd_other by congruence. now apply H.
    + exact E.
    + exists m'. split; [exact R|]. split; [exact S|]. split; [exact Lb|]. intros l Hl. rewrite O by auto. apply upd_other. apply Hl.
Qed.

Lemma send_run : forall n i k sent b m next, (k + n <= length b)%nat -> slots m i b -> (forall j, (j < length b)%nat -> exists z cs, m (Ctl i j) = VCtl z cs) ->
  run (send_prog i n k sent next) m = run (next (sent ++ firstn n (skipn k b))) m.
Proof.
  induction n as [|n IH]; intros i k sent b m next L H C; cbn [send_prog].
  - cbn [firstn]. now rewrite app_nil_r.
  - destruct (nth_error b k) as [c|] eqn:Ek; [|apply nth_error_None in Ek; lia].
    destruct (C k ltac:(lia)) as (z & cs & Ec).
    unfold with_ctl, with_slot. cbn [run]. rewrite Ec. cbn [run]. rewrite (H k c Ek).
    rewrite (IH i (S k) (sent ++ [c]) b) by (auto; lia).
    rewrite (skipn_nth _ _ _ _ Ek). cbn [firstn]. now rewrite <- app_assoc.
Qed.

Lemma write_run : forall i k fs n s w m, iface_typed s -> slots m i (if_buf s) -> ctls m i (if_ctl s) ->
  (n <= 4)%nat -> SocketCanModel.write k s fs n = Ret w ->
  fst (run (write_prog i k fs n) m) = Ret (RWrite (wr_result w) (wr_count w) (wr_sent w)) /\
  slots (snd (run (write_prog i k fs n) m)) i (if_buf (wr_if w)) /\
  (forall l, (forall j, l <> Slot i j) -> snd (run (write_prog i k fs n) m) l = m l) /\
  if_ctl (wr_if w) = if_ctl s /\ if_stats (wr_if w) = if_stats s.
Proof.
  intros i k fs n s w m (LB & TB & LC) HS HC Hn E. unfold SocketCanModel.write, write_prog in *.
  destruct (n =? 0)%nat; [injection E as <-; cbn; auto|].
  apply bind_ret_inv in E. destruct E as (b & F & E).
  edestruct (fill_run n i 0 fs (if_buf s) b m) as (m' & R & S & Lb & O); [exact LB|exact HS|exact F|].
  rewrite R. rewrite (send_run n i 0 [] b).
  - cbn [app skipn]. destruct (k (firstn n b)) as [res errno].
    destruct (res <=? 0); [|destruct (res <? Z.of_nat n)]; injection E as <-; cbn [run fst snd wr_result wr_count wr_sent wr_if set_buf if_buf if_ctl if_stats]; auto.
  - rewrite Lb. unfold RxFramesLen. lia.
  - exact S.
  - intros j Hj. rewrite O by discriminate. destruct (nth_error (if_ctl s) j) as [z|] eqn:Ez; [|apply nth_error_None in Ez; rewrite Lb in Hj; unfold RxFramesLen in *; lia].
    destruct (HC j z Ez) as [cs Ecs]. eauto.
Qed.

(** ** read *)
Lemma recv_run : forall msgs i k buf m next, (length msgs <= length buf)%nat -> (forall j c, nth_error buf j = Some c -> m (Slot i (k + j)) = VSlot c) ->
  exists m', run (recv_prog i k msgs next) m = run next m' /\
    (forall j c, nth_error (receive_all msgs buf) j = Some c -> m' (Slot i (k + j)) = VSlot c) /\
    (forall j x, nth_error msgs j = Some x -> m' (Ctl i (k + j)) = VCtl (km_controllen x) (km_cmsgs x)) /\
    (forall j, (j < k \/ k + length msgs <= j)%nat -> m' (Ctl i j) = m (Ctl i j)) /\
    (forall j, (j < k)%nat -> m' (Slot i j) = m (Slot i j)) /\
    (forall l, (forall j, l <> Slot i j) -> (forall j, l <> Ctl i j) -> m' l = m l).
Proof.
  induction msgs as [|x msgs IH]; intros i k buf m next L H; cbn [recv_prog].
  - exists m. cbn [receive_all]. repeat split; auto. intros [|j] y E; discriminate.
  - destruct buf as [|c buf]; [cbn in L; lia|]. cbn [length receive_all] in *.
    pose proof (H 0%nat c eq_refl) as H0. rewrite Nat.add_0_r in H0.
    unfold with_slot. cbn [run]. rewrite H0.
    set (m1 := upd (Ctl i k) (VCtl (km_controllen x) (km_cmsgs x)) (upd (Slot i k) (VSlot (receive_into x c)) m)).
    cbn [run]. fold m1.
    destruct (IH i (S k) buf m1 next) as (m' & R & S & C & C2 & S2 & O); [lia| |].
    + intros j d E. unfold m1. rewrite upd_other by discriminate. rewrite upd_other; [|intro A; injection A; lia].
      rewrite <- (H (Datatypes.S j) d E). f_equal. f_equal. lia.
    + exists m'. split; [exact R|]. split; [|split; [|split; [|split]]].
      * intros [|j] d E; cbn in E.
        -- injection E as <-. rewrite Nat.add_0_r. rewrite S2 by lia. unfold m1. rewrite upd_other by discriminate. apply upd_same.
        -- rewrite <- (S j d E). f_equal. f_equal. lia.
      * intros [|j] y E; cbn in E.
        -- injection E as <-. rewrite Nat.add_0_r. rewrite C2 by lia. unfold m1. apply upd_same.
        -- rewrite <- (C j y E). f_equal. f_equal. lia.
      * intros j Hj. rewrite C2 by lia. unfold m1. rewrite upd_other; [|intro A; injection A; lia]. apply upd_other. discriminate.
      * intros j Hj. rewrite S2 by lia. unfold m1. rewrite upd_other by discriminate. apply upd_other. intro A; injection A; lia.
      * intros l A B. rewrite O by auto. unfold m1. rewrite upd_other by auto. apply upd_other. auto.
Qed.

Lemma look_run : forall msgs i k buf st out count m next st' out' count',
  slots m i buf -> (forall j x, nth_error msgs j = Some x -> m (Ctl i (k + j)) = VCtl (km_controllen x) (km_cmsgs x)) ->
  m (Stat i) = VStat st -> read_loop msgs k buf st out count = Ret (st', out', count') ->
  exists m', run (look_prog i (length msgs) k out count next) m = run (next out' count') m' /\
    m' (Stat i) = VStat st' /\ forall l, l <> Stat i -> m' l = m l.
Proof.
  induction msgs as [|x msgs IH]; intros i k buf st out count m next st' out' count' HS HC HT E; cbn [read_loop look_prog length] in *.
  - injection E as <- <- <-. exists m. auto.
  - destruct (nth_error buf k) as [c|] eqn:Ek; [|discriminate].
    destruct (nth_error out count) as [old|]; [|discriminate].
    pose proof (HC 0%nat x eq_refl) as H0. rewrite Nat.add_0_r in H0.
    unfold with_ctl, with_stat, with_slot. cbn [run]. rewrite H0. cbn [run]. rewrite HT.
    destruct (cmsg_loop (km_controllen x) (km_cmsgs x) 0 (rx_dropped st)) as [ts dropped]. cbn [run].
    rewrite (HS k c Ek).
    assert (N : forall st1 out1 count1, read_loop msgs (S k) buf st1 out1 count1 = Ret (st', out', count') ->
      exists m', run (look_prog i (length msgs) (S k) out1 count1 next) (upd (Stat i) (VStat st1) m) = run (next out' count') m' /\
        m' (Stat i) = VStat st' /\ forall l, l <> Stat i -> m' l = m l).
    { intros st1 out1 count1 E1.
      destruct (IH i (S k) buf st1 out1 count1 (upd (Stat i) (VStat st1) m) next st' out' count') as (m' & R & T & O).
      - intros j d Ej. rewrite upd_other by discriminate. now apply HS.
      - intros j y Ej. rewrite upd_other by discriminate. rewrite <- (HC (S j) y Ej). f_equal. f_equal. lia.
      - apply upd_same.
      - exact E1.
      - exists m'. split; [exact R|]. split; [exact T|]. intros l Hl. rewrite O by auto. now apply upd_other. }
    destruct (has (cf_id c) CAN_ERR_FLAG); [cbn [run]; now apply N|].
    destruct (has (cf_id c) CAN_EFF_MASK); [|cbn [run]; now apply N].
    destruct (frame_make mtu (cf_id c) (Some (cf_data c)) (get_message_length c) ts) as [tmp|]; [|discriminate]. cbn [bind] in *.
    destruct (frame_assign mtu old tmp) as [f|]; [|discriminate]. cbn [bind after run] in *. now apply N.
Qed.

Lemma receive_ctl_nth : forall ms ctl k x, nth_error (receive_ctl ms ctl) k = Some x ->
  match nth_error ms k with Some q => x = km_controllen q | None => nth_error ctl k = Some x end.
Proof.
  induction ms as [|q ms IH]; intros [|z ctl] [|k] x E; cbn in *; try discriminate; try congruence.
  - apply IH. exact E.
Qed.

Lemma read_run : forall i res errno msgs out s r m, iface_typed s -> slots m i (if_buf s) -> ctls m i (if_ctl s) ->
  m (Stat i) = VStat (if_stats s) -> SocketCanModel.read res errno msgs s out = Ret r ->
  fst (run (read_prog i res errno msgs out) m) = Ret (RRead (rd_result r) (Z.of_nat (rd_count r)) (rd_frames r)) /\
  slots (snd (run (read_prog i res errno msgs out) m)) i (if_buf (rd_if r)) /\
  ctls (snd (run (read_prog i res errno msgs out) m)) i (if_ctl (rd_if r)) /\
  snd (run (read_prog i res errno msgs out) m) (Stat i) = VStat (if_stats (rd_if r)) /\
  (forall l, (forall j, l <> Slot i j) -> (forall j, l <> Ctl i j) -> l <> Stat i -> snd (run (read_prog i res errno msgs out) m) l = m l).
Proof.
  intros i res errno msgs out s r m (LB & TB & LC) HS HC HT E. unfold SocketCanModel.read, read_prog in *.
  destruct (res <=? 0); [injection E as <-; cbn [run fst snd rd_result rd_count rd_frames rd_if]; auto|].
  set (seen := firstn RxFramesLen (firstn (Z.to_nat res) msgs)) in *.
  assert (LS : (length seen <= 4)%nat) by (unfold seen, RxFramesLen; rewrite firstn_length; lia).
  apply bind_ret_inv in E. destruct E as ([[st out'] k] & RL & E). injection E as <-.
  edestruct (recv_run seen i 0 (if_buf s) m) as (m1 & R1 & S1 & C1 & C2 & _ & O1); [lia|intros j c Hj; now apply HS|].
  rewrite R1.
  edestruct (look_run seen i 0 (receive_all seen (if_buf s)) (if_stats s) out 0 m1) as (m2 & R2 & T2 & O2).
  - intros j c Hj. apply (S1 j c Hj).
  - intros j x Hj. apply (C1 j x Hj).
  - rewrite O1 by discriminate. exact HT.
  - exact RL.
  - rewrite R2. unfold with_stat. cbn [run]. rewrite T2. cbn [run fst snd rd_result rd_count rd_frames rd_if if_buf if_ctl if_stats].
    split; [reflexivity|]. split; [|split; [|split]].
    + intros j c Hj. rewrite upd_other by discriminate. rewrite O2 by discriminate. apply (S1 j c Hj).
    + intros j x Hj. rewrite upd_other by discriminate. rewrite O2 by discriminate.
      pose proof (receive_ctl_nth seen (if_ctl s) j x Hj) as Q. destruct (nth_error seen j) as [q|] eqn:Ej.
      * subst x. exists (km_cmsgs q). apply (C1 j q Ej).
      * rewrite C2 by (right; cbn; now apply nth_error_None). now apply HC.
    + apply upd_same.
    + intros l A B C. rewrite upd_other by auto. rewrite O2 by auto. now apply O1.
Qed.

(** ** The group *)
Definition constants (f : iface) : Z * string * Z := (if_index f, if_name f, if_fd f).
Definition kin (g g' : group) : Prop := map constants g = map constants g'.

Lemma kin_length : forall g g', kin g g' -> length g = length g'.
Proof. intros g g' H. rewrite <- (map_length constants g), <- (map_length constants g'). now rewrite H. Qed.

Lemma kin_nth : forall g g', kin g g' -> forall i,
  match nth_error g i, nth_error g' i with Some a, Some b => constants a = constants b | None, None => True | _, _ => False end.
Proof.
  unfold kin. induction g as [|a g IH]; intros [|b g'] H i; cbn in H; try discriminate; destruct i; cbn; auto.
  - congruence.
  - apply IH. congruence.
Qed.

Lemma kin_replace : forall g g' i f f', kin g g' -> nth_error g' i = Some f -> constants f' = constants f -> kin g (replace_nth i f' g').
Proof.
  unfold kin. intros g g' i f f' H E C. rewrite H. clear H. revert i E. induction g' as [|a g' IH]; intros [|i] E; cbn in *; try discriminate.
  - injection E as ->. now rewrite C.
  - f_equal. now apply IH.
Qed.

Lemma kin_fill : forall g g' r ev v i, kin g g' -> PollModel.fill r v i ev g = PollModel.fill r v i ev g'.
Proof.
  unfold kin. induction g as [|a g IH]; intros [|b g'] r ev v i H; cbn in H; try discriminate; auto. cbn [PollModel.fill].
  injection H as H1 H2 H3 H. unfold getSocketDescriptor. rewrite H3. destruct (put r v i (Pollfd (if_fd b) ev 0)); cbn; auto.
Qed.

Lemma kin_select : forall P pp g g' t ig, kin g g' -> select P pp g t ig = select P pp g' t ig.
Proof.
  intros P pp g g' t ig H. unfold select. rewrite (kin_length g g' H).
  assert (E : forall ev : Z, map (fun s => (getSocketDescriptor s, ev)) g = map (fun s => (getSocketDescriptor s, ev)) g').
  { intro ev. revert g' H. unfold kin. induction g as [|a g IH]; intros [|b g'] H; cbn in H; try discriminate; auto.
    cbn. injection H as H1 H2 H3 H. f_equal; [|auto]. unfold getSocketDescriptor. now rewrite H3. }
  now rewrite E.
Qed.

Lemma kin_filters : forall fuel g g' i t ans cf n lg, kin g g' ->
  reconfigure_loop fuel i t g ans cf n lg = reconfigure_loop fuel i t g' ans cf n lg.
Proof.
  induction fuel as [|fuel IH]; intros g g' i t ans cf n lg H; cbn [reconfigure_loop]; auto.
  rewrite (kin_length g g' H). destruct (i <? Z.of_nat (length g')); auto.
  pose proof (kin_nth g g' H (Z.to_nat i)) as K.
  destruct (nth_error g (Z.to_nat i)) as [a|], (nth_error g' (Z.to_nat i)) as [b|]; try contradiction; auto.
  unfold getSocketDescriptor. injection K as _ _ ->.
  destruct (configureFilters (ans t) (if_fd b) cf n lg) as [[r l']|]; auto. destruct (result_not r); auto.
Qed.

Lemma kin_name : forall g g' i, kin g g' -> group_getInterfaceName g i = group_getInterfaceName g' i.
Proof.
  intros g g' i H. unfold group_getInterfaceName. rewrite (kin_length g g' H). destruct (Z.of_nat (length g') <=? i); auto.
  pose proof (kin_nth g g' H (Z.to_nat i)) as K.
  destruct (nth_error g (Z.to_nat i)) as [a|], (nth_error g' (Z.to_nat i)) as [b|]; try contradiction; auto.
  unfold getInterfaceName. injection K as _ -> _. reflexivity.
Qed.

Record good (g : group) (s : state) : Prop := {
  g_kin : kin g (fst s);
  g_typed : Forall iface_typed (fst s);
  g_size : pv_size (snd s) = 0%nat
}.

Lemma holds_replace : forall m m' g v i f f', nth_error g i = Some f -> holds_state m (g, v) ->
  m' (Stat i) = VStat (if_stats f') -> slots m' i (if_buf f') -> ctls m' i (if_ctl f') ->
  (forall l, (forall j, l <> Slot i j) -> (forall j, l <> Ctl i j) -> l <> Stat i -> m' l = m l) ->
  holds_state m' (replace_nth i f' g, v).
Proof.
  intros m m' g v i f f' E [HP H] HT HS HC O. split; cbn [fst snd] in *.
  - rewrite O by discriminate. exact HP.
  - intros j h Ej. rewrite nth_error_replace_nth in Ej. destruct (Nat.eqb_spec j i) as [->|D].
    + rewrite E in Ej. injection Ej as <-. auto.
    + destruct (H j h Ej) as (A & B & C). split; [|split].
      * rewrite O; auto; try discriminate. congruence.
      * intros k c Hk. rewrite O; auto; try discriminate. intros q A'. injection A' as A' _. congruence.
      * intros k z Hk. rewrite O; auto; try discriminate. intros q A'. injection A' as A' _. congruence.
Qed.

Lemma select_run : forall P g g' c v e v' asked m, kin g g' -> m Polls = VPolls v ->
  select_mem P Storage (sc_mem c) (sc_ppoll c) g' (sc_timeout c) (sc_ignore c) v = Ret (e, v', asked) ->
  fst (run (select_prog P g c) m) = Ret (RSelect e) /\ snd (run (select_prog P g c) m) Polls = VPolls v' /\
  forall l, l <> Polls -> snd (run (select_prog P g c) m) l = m l.
Proof.
  intros P g g' c v e v' asked m K HP E. unfold select_mem, select_prog in *. rewrite (kin_length g g' K).
  unfold with_polls. cbn zeta in *. cbn [run]. rewrite HP.
  destruct (reserve (sc_mem c) (length g') v) as [[v1|] a]; [|injection E as <- <- <-; cbn; auto].
  rewrite (kin_fill g g') by auto.
  destruct (PollModel.fill _ _ _ _ _) as [v2|]; [|discriminate]. cbn [bind after run] in *.
  destruct (dur_sub _ _ _ _) as [nsec|]; [|discriminate]. cbn [bind after run] in *. rewrite upd_same.
  destruct (fetch v2 0 (length g')) as [fds|]; [|discriminate]. cbn [bind after] in *.
  destruct (sc_ppoll c _) as [res rv].
  destruct (Z.ltb_spec res 0) as [N|N].
  - cbn [bind] in E. replace (res =? 0) with false in E by (symmetry; apply Z.eqb_neq; lia).
    injection E as <- <- <-. cbn [run fst snd]. split; [reflexivity|]. split; [apply upd_same|]. intros l D. now apply upd_other.
  - cbn [run]. rewrite upd_same. destruct (answer_cells v2 0 (length g') rv) as [v3|]; [|discriminate]. cbn [bind after run] in *.
    destruct (res =? 0).
    + injection E as <- <- <-. cbn [run fst snd]. split; [reflexivity|]. split; [apply upd_same|]. intros l D. now rewrite !upd_other.
    + cbn [run]. rewrite upd_same. destruct (scan Storage v3 0 (length g')) as [r|]; [|discriminate]. cbn [bind after run] in *.
      injection E as <- <- <-. cbn [run fst snd]. split; [reflexivity|]. split; [apply upd_same|]. intros l D. now rewrite !upd_other.
Qed.

Lemma select_total : forall P g c v, pv_size v = 0%nat -> select P (sc_ppoll c) g (sc_timeout c) (sc_ignore c) <> UB ->
  exists e v' a, select_mem P Storage (sc_mem c) (sc_ppoll c) g (sc_timeout c) (sc_ignore c) v = Ret (e, v', a) /\ pv_size v' = 0%nat.
Proof.
  intros P g c [cells z] Z0 U. cbn in Z0. subst z. destruct (le_lt_dec (length g) (length cells)) as [L|L].
  - destruct (select_stored P (sc_mem c) (sc_ppoll c) g (sc_timeout c) (sc_ignore c) cells L U) as (r & req & c' & _ & E & _). eauto 10.
  - destruct (sc_mem c) as [k|].
    + destruct (select_fresh P k (sc_ppoll c) g (sc_timeout c) (sc_ignore c) cells L U) as (r & req & c' & _ & E & _). eauto 10.
    + rewrite select_nomem by auto. eauto 10.
Qed.

Lemma refine : forall P g c s m, good g s -> holds_state m s -> proper P g c ->
  exists r s', serve P c s = Ret (r, s') /\ fst (run (program P g c) m) = Ret r /\
    holds_state (snd (run (program P g c) m)) s' /\ good g s'.
Proof.
  intros P g c [g' v] m G H PR. pose proof G as G0. destruct G as [K T Z0]. cbn [fst snd] in *.
  pose proof (kin_length g g' K) as L.
  destruct c as [i k fs n cnt|i res e ms out cnt|i|c|fu an cf nu|i|]; cbn [serve program proper] in *.
  - unfold group_write. rewrite L. destruct (Z.leb_spec (Z.of_nat (length g')) i) as [B|B]; cbn [negb].
    + cbn [bind]. do 2 eexists. repeat (split; [reflexivity|]). cbn. auto.
    + destruct PR as (I0 & TF & Hn).
      destruct (nth_error g' (Z.to_nat i)) as [f|] eqn:Ef; [|apply nth_error_None in Ef; lia].
      assert (TI : iface_typed f) by (eapply Forall_forall in T; [exact T|eapply nth_error_In; exact Ef]).
      destruct (write_typed k f fs n TI TF Hn) as (w & Ew & TW). rewrite Ew. cbn [bind].
      pose proof H as (HP & HG). destruct (HG (Z.to_nat i) f Ef) as (HT & HS & HC).
      destruct (write_run (Z.to_nat i) k fs n f w m TI HS HC Hn Ew) as (R & S & O & C1 & C2).
      do 2 eexists. split; [reflexivity|]. split; [exact R|]. split.
      * apply (holds_replace m _ g' v (Z.to_nat i) f); auto.
        -- rewrite O by discriminate. now rewrite C2.
        -- rewrite C1. intros q x Hq. rewrite O by discriminate. auto.
      * destruct (write_keeps k f fs n w Ew) as (_ & _ & K1 & K2 & K3).
        constructor; cbn [fst snd]; auto.
        -- apply (kin_replace g g' (Z.to_nat i) f); auto. unfold constants. now rewrite K1, K2, K3.
        -- now apply replace_nth_Forall.
  - unfold group_read. rewrite L. destruct (Z.leb_spec (Z.of_nat (length g')) i) as [B|B]; cbn [negb].
    + cbn [bind]. do 2 eexists. repeat (split; [reflexivity|]). cbn. auto.
    + destruct PR as (I0 & RO & TF).
      destruct (nth_error g' (Z.to_nat i)) as [f|] eqn:Ef; [|apply nth_error_None in Ef; lia].
      assert (TI : iface_typed f) by (eapply Forall_forall in T; [exact T|eapply nth_error_In; exact Ef]).
      destruct (read_typed res e ms f out TI TF RO) as (r & Er & TR & _). rewrite Er. cbn [bind].
      pose proof H as (HP & HG). destruct (HG (Z.to_nat i) f Ef) as (HT & HS & HC).
      destruct (read_run (Z.to_nat i) res e ms out f r m TI HS HC HT Er) as (R & S & C & St & O).
      do 2 eexists. split; [reflexivity|]. split; [exact R|]. split.
      * apply (holds_replace m _ g' v (Z.to_nat i) f); auto.
      * constructor; cbn [fst snd]; auto.
        -- apply (kin_replace g g' (Z.to_nat i) f); auto. revert Er. unfold SocketCanModel.read.
           destruct (res <=? 0); [intro A; injection A as <-; reflexivity|]. intro A. apply bind_ret_inv in A.
           destruct A as ([[st out'] q] & _ & A). injection A as <-. reflexivity.
        -- now apply replace_nth_Forall.
  - unfold group_getInterface. rewrite L. destruct (Z.leb_spec (Z.of_nat (length g')) i) as [B|B]; cbn [negb].
    + do 2 eexists. repeat (split; [reflexivity|]). cbn. auto.
    + destruct (nth_error g' (Z.to_nat i)) as [f|] eqn:Ef; [|apply nth_error_None in Ef; lia].
      pose proof H as (HP & HG). destruct (HG (Z.to_nat i) f Ef) as (HT & HS & HC).
      do 2 eexists. split; [reflexivity|]. unfold with_stat. cbn [run]. rewrite HT. cbn. auto.
  - rewrite (kin_select P (sc_ppoll c) g g' (sc_timeout c) (sc_ignore c) K) in PR.
    destruct (select_total P g' c v Z0 PR) as (e & v' & a & E & Z1). rewrite E. cbn [bind].
    pose proof H as (HP & HG). destruct (select_run P g g' c v e v' a m K HP E) as (R & S & O).
    do 2 eexists. split; [reflexivity|]. split; [exact R|]. split.
    + split; [exact S|]. intros i f Ef. destruct (HG i f Ef) as (A & B & C). split; [|split].
      * now rewrite O by discriminate.
      * intros. rewrite O by discriminate. auto.
      * intros. rewrite O by discriminate. eauto.
    + constructor; auto.
  - do 2 eexists. split; [reflexivity|]. unfold reconfigureFilters. rewrite (kin_filters fu g g') by auto. cbn. auto.
  - do 2 eexists. split; [reflexivity|]. rewrite (kin_name g g') by auto. cbn. auto.
  - do 2 eexists. split; [reflexivity|]. unfold getInterfaceCount. rewrite L. cbn. auto.
Qed.

Lemma refine_all : forall P g cs s m, good g s -> holds_state m s -> Forall (proper P g) cs ->
  exists rs s', serve_all P cs s = Ret (rs, s') /\ fst (run_all P g cs m) = map Ret rs /\
    holds_state (snd (run_all P g cs m)) s' /\ good g s'.
Proof.
  intros P g cs. induction cs as [|c cs IH]; intros s m G H F; cbn [serve_all run_all].
  - exists [], s. auto.
  - inversion F as [|? ? Pc Fc]; subst. destruct (refine P g c s m G H Pc) as (r & s1 & E & R & H1 & G1). rewrite E. cbn [bind].
    destruct (run (program P g c) m) as [o m1]. cbn [fst snd] in *. subst o.
    destruct (IH s1 m1 G1 H1 Fc) as (rs & s2 & E2 & R2 & H2 & G2). rewrite E2. cbn [bind].
    destruct (run_all P g cs m1) as [os m2]. cbn [fst snd map] in *.
    exists (r :: rs), s2. rewrite R2. auto.
Qed.

Lemma holds_start : forall s rest, holds_state (memory_of s rest) s.
Proof.
  intros s rest. split; [reflexivity|]. intros i f E. cbn [memory_of]. rewrite E. split; [reflexivity|]. split.
  - intros k c Hk. now rewrite Hk.
  - intros k z Hk. rewrite Hk. eauto.
Qed.

Lemma log_proper : forall P s0 ok s, overlapped P s0 ok s ->
  Forall (proper P (fst s0)) (calls_of (log s)) /\ forall t c p, doing s t = Some (c, p) -> proper P (fst s0) c.
Proof.
  intros P s0 ok s R. induction R as [rest|s e s' R [IL IT] OK E].
  - split; [constructor|discriminate].
  - destruct e as [t c|t|t]; cbn [step] in E.
    + destruct (doing s t) eqn:D; [discriminate|]. injection E as <-. split; [exact IL|]. cbn [doing]. intros u d p.
      unfold set_thread. destruct (u =? t)%nat; [|apply IT]. intro A. injection A as <- <-. apply OK.
    + destruct (doing s t) as [[c [o|l k|l v p]]|] eqn:D; try discriminate; injection E as <-; (split; [exact IL|]); cbn [doing]; intros u d q;
      unfold set_thread; (destruct (u =? t)%nat; [|apply IT]); intro A; injection A as <- <-; eauto.
    + destruct (doing s t) as [[c [o|l k|l v p]]|] eqn:D; try discriminate. injection E as <-. cbn [log doing]. split.
      * rewrite calls_snoc. apply Forall_app. split; [exact IL|]. constructor; [|constructor]. cbn. eauto.
      * intros u d q. unfold set_thread. destruct (u =? t)%nat; [discriminate|apply IT].
Qed.

Theorem apart_as_if_alone : forall P s0 s, Forall iface_typed (fst s0) -> pv_size (snd s0) = 0%nat -> overlapped P s0 apart s ->
  exists rs s1, serve_all P (calls_of (log s)) s0 = Ret (rs, s1) /\ answers_of (log s) = map Ret rs /\
    (quiet s -> holds_state (mem_of s) s1).
Proof.
  intros P s0 s T Z0 R. destruct (overlapped_inv P s0 s R) as [rest IV]. destruct IV as [L _ M _].
  destruct (log_proper P s0 apart s R) as [F _].
  assert (G : good (fst s0) s0) by (constructor; auto; reflexivity).
  destruct (refine_all P (fst s0) (calls_of (log s)) s0 (memory_of s0 rest) G (holds_start s0 rest) F) as (rs & s1 & E & R1 & H & _).
  exists rs, s1. split; [exact E|]. split; [rewrite L; exact R1|]. intro Q.
  assert (A : forall l, mem_of s l = snd (run_all P (fst s0) (calls_of (log s)) (memory_of s0 rest)) l).
  { intro l. apply M. intros t c p D. rewrite Q in D. discriminate. }
  destruct H as [HP HG]. split; [now rewrite A|]. intros i f Ef. destruct (HG i f Ef) as (B & C & D).
  split; [now rewrite A|]. split; intros; rewrite A; eauto.
Qed.

Theorem apart_no_race : forall P s0 s, overlapped P s0 apart s -> ~ racing s.
Proof.
  intros P s0 s R (t & u & c & d & p & q & l & a & b & D & E1 & E2 & N1 & N2 & W).
  destruct (overlapped_inv P s0 s R) as [rest IV]. destruct IV as [_ T _ Q].
  destruct (T t c p E1) as (Ic & Wc & _). destruct (T u d q E2) as (Id & Wd & _).
  assert (K : ~ clash c d) by (apply (Q t u c d p q); auto).
  assert (K' : ~ clash d c) by (intro A; apply K; now apply clash_sym).
  destruct p as [o|lp kp|lp vp pp]; cbn in N1; try discriminate; injection N1 as <- <-;
  destruct q as [o'|lq kq|lq vq pq]; cbn in N2; try discriminate; injection N2 as -> <-; cbn in Wc, Wd;
  destruct W as [W|W]; try discriminate W.
  - apply (apart_disjoint d c lp); tauto.
  - apply (apart_disjoint c d lp); tauto.
  - apply (apart_disjoint c d lp); try tauto. now apply writes_touches.
  - apply (apart_disjoint c d lp); try tauto. now apply writes_touches.
Qed.
