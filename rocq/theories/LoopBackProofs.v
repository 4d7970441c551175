(** Proofs about the loopback test. *)
From Coq Require Import ZArith Bool String List Lia.
From Verif Require Import Outcome ResultModel CanFrameModel CanFrameSpec CanFrameProofs SocketCanModel SocketCanSpec SocketCanProofs
  SocketCanHist GroupModel GroupSpec GroupProofs ManagerModel ManagerSpec ManagerProofs LoopBackModel LoopBackSpec.
Import ListNotations.
Open Scope Z_scope.

(** What reading every interface of the group, once per round, delivers. *)
Fixpoint history (rounds : list round) (g : group) : outcome (list (list (result * list frame))) :=
  match rounds with
  | [] => Ret []
  | rn :: rest =>
      let* (g', batch) := read_round (length g) 0 (rn_recv rn) g (repeat (frame_default mtu) RxFramesLen) in
      let* t := history rest g' in
      Ret (batch :: t)
  end.

(** ** Evaluation *)

Definition frame_ok (f : frame) : Prop := frame_typed 64 f /\ fdlc f < 256.
Definition tf (j : nat) : frame := nth j test_frames (frame_default mtu).
Definition same (j : nat) (f : frame) : bool := match frame_eq 0 f (tf j) with Ret b => b | UB => false end.
(** The value of a flag word. *)
Definition m (p : bool * bool) : Z := Z.b2z (fst p) + 2 * Z.b2z (snd p).

Lemma frame_ok_wf : forall f, frame_ok f -> frame_wf 64 f.
Proof. intros f [T _]. split; auto. destruct T as [_ [D _]]. pose proof (dlcToLength_bound (fdlc f) D). unfold getDataLength. lia. Qed.

Lemma test_frames_typed : frames_typed test_frames.
Proof. split; [reflexivity|]. repeat constructor; cbn; lia. Qed.

Lemma tf_ok : forall j, (j < 2)%nat -> frame_ok (tf j).
Proof. intros [|[|j]] H; [| |lia]; repeat split; cbn; lia. Qed.

Lemma same_eq : forall j f, (j < 2)%nat -> frame_ok f -> frame_eq 0 f (tf j) = Ret (same j f).
Proof.
  intros j f J F. destruct (frame_eq_spec 64 0 f (tf j)) as [r [E _]]; try (apply frame_ok_wf; auto; now apply tf_ok).
  unfold same. now rewrite E.
Qed.

Lemma eval_one : forall f p, frame_ok f ->
  (let* v0 := eval_bit (m p) f 0 in eval_bit v0 f 1) = Ret (m (fst p || same 0 f, snd p || same 1 f)).
Proof.
  intros f [a b] F. unfold eval_bit. fold (tf 0) (tf 1). rewrite (same_eq 0 f ltac:(lia) F), (same_eq 1 f ltac:(lia) F).
  destruct a, b, (same 0 f), (same 1 f); reflexivity.
Qed.

Lemma eval_frames_eq : forall fs p, Forall frame_ok fs ->
  eval_frames (m p) fs = Ret (m (fst p || existsb (same 0) fs, snd p || existsb (same 1) fs)).
Proof.
  induction fs as [|f fs IH]; intros p F.
  - cbn [eval_frames existsb]. rewrite !orb_false_r. destruct p; reflexivity.
  - inversion F; subst. cbn [eval_frames existsb].
    assert (E := eval_one f p H1). destruct (eval_bit (m p) f 0) as [v0|]; cbn [bind] in *; [|discriminate].
    rewrite E. cbn [bind]. rewrite IH by auto. cbn [fst snd]. now rewrite !orb_assoc.
Qed.

Definition upd (p : bool * bool) (x : result * list frame) : bool * bool :=
  if isSuccess (fst x) then (fst p || existsb (same 0) (snd x), snd p || existsb (same 1) (snd x)) else p.

Fixpoint upds (fl : list (bool * bool)) (batch : list (result * list frame)) : list (bool * bool) :=
  match fl, batch with
  | p :: fl', x :: b' => upd p x :: upds fl' b'
  | _, _ => fl
  end.

Lemma replace_nth_app : forall A (pre : list A) x v post, replace_nth (length pre) v (pre ++ x :: post) = pre ++ v :: post.
Proof. induction pre; intros; cbn [length app replace_nth]; [reflexivity|now rewrite IHpre]. Qed.

Lemma evaluate_eq : forall pre p post fs, Forall frame_ok fs ->
  evaluate (length pre) fs (pre ++ m p :: post) =
  Ret (pre ++ m (fst p || existsb (same 0) fs, snd p || existsb (same 1) fs) :: post).
Proof.
  intros pre p post fs F. unfold evaluate. rewrite nth_error_app2, Nat.sub_diag by lia. cbn [nth_error].
  destruct (Z.eqb_spec (m p) 3) as [E|E].
  - destruct p as [[|] [|]]; try discriminate. cbn [fst snd orb]. reflexivity.
  - rewrite eval_frames_eq by auto. cbn [bind]. now rewrite replace_nth_app.
Qed.

Lemma evaluate_round_eq : forall batch pre fl, length fl = length batch -> Forall (fun x => Forall frame_ok (snd x)) batch ->
  evaluate_round (length pre) batch (pre ++ map m fl) = Ret (pre ++ map m (upds fl batch)).
Proof.
  induction batch as [|[r fs] batch IH]; intros pre fl L F.
  - destruct fl; [reflexivity|discriminate].
  - destruct fl as [|p fl]; [discriminate|]. inversion F as [|? ? F1 F2]; subst. cbn [evaluate_round map upds snd] in *.
    assert (E : (if negb (result_not r) && (0 <? Z.of_nat (length fs)) then evaluate (length pre) fs (pre ++ m p :: map m fl)
      else Ret (pre ++ m p :: map m fl)) = Ret (pre ++ m (upd p (r, fs)) :: map m fl)).
    { unfold upd, isSuccess. cbn [fst snd]. destruct (negb (result_not r)); [|reflexivity].
      destruct fs as [|f fs].
      - cbn [existsb length andb]. rewrite !orb_false_r. destruct p; reflexivity.
      - destruct (Z.ltb_spec 0 (Z.of_nat (length (f :: fs)))) as [_|Q]; [|cbn [length] in Q; lia]. cbn [andb]. now apply evaluate_eq. }
    rewrite E. cbn [bind].
    assert (A : forall x rest, pre ++ x :: rest = (pre ++ [x]) ++ rest) by (intros; now rewrite <- app_assoc).
    rewrite (A (m (upd p (r, fs))) (map m fl)), (A (m (upd p (r, fs))) (map m (upds fl batch))).
    replace (S (length pre)) with (length (pre ++ [m (upd p (r, fs))])) by (rewrite app_length; cbn [length]; lia).
    apply IH; auto.
Qed.

(** ** Reading *)

Definition seen (id : Z) (answer : Z * Z * list kmsg) : bool :=
  let '(res, errno, msgs) := answer in
  (0 <? res) && existsb (fun km => negb (is_error (km_id km)) && (identifier (km_id km) =? id) && (km_len km =? 0)) msgs.

Lemma same_delivered : forall j km f, (j < 2)%nat -> frame_ok f -> delivered_frame km f ->
  same j f = (identifier (km_id km) =? Z.of_nat j + 1) && (km_len km =? 0).
Proof.
  intros j km f J F (D1 & _ & D3 & _). unfold same. rewrite (same_eq j f J F).
  assert (E := frame_eq_true 64 0 f (tf j) (frame_ok_wf _ F) (frame_ok_wf _ (tf_ok j J))).
  rewrite (same_eq j f J F) in E.
  assert (T : fid (tf j) = Z.of_nat j + 1 /\ fdlc (tf j) = 0) by (destruct j as [|[|j]]; [split; reflexivity|split; reflexivity|lia]).
  destruct T as [T1 T2]. apply eq_true_iff_eq. rewrite andb_true_iff, !Z.eqb_eq.
  transitivity (frames_equal 0 f (tf j)); [rewrite <- E; split; congruence|]. unfold frames_equal. rewrite T1, T2, D1, D3.
  unfold identifier. split.
  - intros (A & B & _). split; auto. assert (Q : (Z.of_nat j + 1) mod 2 ^ 29 = Z.of_nat j + 1) by (apply Z.mod_small; lia).
    rewrite <- Q. apply Z.bits_inj'. intros k K. destruct (Z.ltb_spec k 29).
    + rewrite !Z.mod_pow2_bits_low by lia. apply A. left. lia.
    + rewrite !Z.mod_pow2_bits_high by lia. reflexivity.
  - intros (A & B). split; [|split; auto].
    + intros k [K|[K1 K2]]; [|now rewrite Z.bits_0 in K2].
      rewrite <- A. symmetry. apply Z.mod_pow2_bits_low. lia.
    + intros i Hi. unfold getDataLength in Hi. rewrite D3, B in Hi. cbn in Hi. lia.
Qed.

Lemma seen_frames : forall j msgs fs, (j < 2)%nat -> Forall frame_ok fs ->
  Forall2 delivered_frame (List.filter (fun m => negb (is_error (km_id m)) && negb (identifier (km_id m) =? 0)) msgs) fs ->
  existsb (same j) fs =
  existsb (fun km => negb (is_error (km_id km)) && (identifier (km_id km) =? Z.of_nat j + 1) && (km_len km =? 0)) msgs.
Proof.
  intros j msgs fs J. revert fs. induction msgs as [|km msgs IH]; intros fs F D; cbn [List.filter existsb] in *.
  - inversion D. reflexivity.
  - destruct (is_error (km_id km)); cbn [negb andb orb] in *; [now apply IH|].
    destruct (Z.eqb_spec (identifier (km_id km)) 0) as [Q|Q]; cbn [negb] in *.
    + destruct (Z.eqb_spec (identifier (km_id km)) (Z.of_nat j + 1)); [lia|]. now apply IH.
    + inversion D as [|? f ? fs' D1 D2]; subst. inversion F; subst. cbn [existsb]. rewrite (same_delivered j km f) by auto.
      f_equal. now apply IH.
Qed.

Definition batch_of (recv : Z * Z * list kmsg) (x : result * list frame) : Prop :=
  Forall frame_ok (snd x) /\ forall p, upd p x = (fst p || seen 1 recv, snd p || seen 2 recv).

Lemma group_read_ok : forall res errno msgs g i out, Forall iface_typed g -> (i < length g)%nat -> frames_typed out -> recv_ok res msgs ->
  exists g' r c fs, group_read res errno msgs g (Z.of_nat i) out 0 = Ret (g', r, c, fs) /\
    length g' = length g /\ Forall iface_typed g' /\ frames_typed fs /\ batch_of (res, errno, msgs) (r, firstn (Z.to_nat c) fs).
Proof.
  intros res errno msgs g i out TG I TO RO. unfold group_read.
  destruct (Z.leb_spec (Z.of_nat (length g)) (Z.of_nat i)); [lia|]. rewrite Nat2Z.id.
  destruct (nth_error g i) as [s|] eqn:E; [|apply nth_error_None in E; lia].
  assert (TS : iface_typed s) by (rewrite Forall_forall in TG; apply TG; eapply nth_error_In; eauto).
  destruct (read_typed res errno msgs s out TS TO RO) as (r & ER & T1 & T2). rewrite ER. cbn [bind].
  do 4 eexists. split; [reflexivity|]. split; [apply replace_nth_length|]. split; [now apply replace_nth_Forall|]. split; auto.
  rewrite Nat2Z.id. assert (F : Forall frame_ok (firstn (rd_count r) (rd_frames r))) by apply Forall_firstn, T2. split; [exact F|].
  intros p. unfold upd, seen. cbn [fst snd]. destruct (Z.ltb_spec 0 res) as [P|P].
  - destruct (read_positive res errno msgs s out TS TO RO P) as (r' & ER' & RS & _ & _ & _ & D & _).
    assert (r' = r) by congruence. subst r'. rewrite RS. cbn [andb].
    rewrite (seen_frames 0 msgs), (seen_frames 1 msgs) by (auto; lia). reflexivity.
  - destruct (read_negative res errno msgs s out P) as (r' & ER' & RC & _).
    assert (r' = r) by congruence. subst r'. rewrite RC. cbn [andb firstn existsb]. rewrite !orb_false_r.
    destruct p, (isSuccess _); reflexivity.
Qed.

Lemma read_round_ok : forall n i recv g out, Forall iface_typed g -> (i + n <= length g)%nat -> frames_typed out ->
  (forall k, (i <= k < i + n)%nat -> let '(res, errno, msgs) := recv k in recv_ok res msgs) ->
  exists g' batch, read_round n i recv g out = Ret (g', batch) /\ length g' = length g /\ Forall iface_typed g' /\
    Forall2 (fun k x => batch_of (recv k) x) (seq i n) batch.
Proof.
  induction n; intros i recv g out TG L TO R.
  - exists g, []. cbn [read_round seq]. auto.
  - cbn [read_round seq]. assert (Ri := R i ltac:(lia)). destruct (recv i) as [[res errno] msgs] eqn:ER.
    destruct (group_read_ok res errno msgs g i out TG ltac:(lia) TO Ri) as (g1 & r & c & fs & -> & L1 & T1 & F1 & B1). cbn [bind].
    destruct (IHn (S i) recv g1 fs) as (g2 & batch & -> & L2 & T2 & LB); auto; [lia|intros k K; apply R; lia|].
    cbn [bind]. do 2 eexists. split; [reflexivity|]. split; [lia|]. split; auto. constructor; auto. now rewrite ER.
Qed.

Lemma batch_ok : forall n i recv batch, Forall2 (fun k x => batch_of (recv k) x) (seq i n) batch ->
  length batch = n /\ Forall (fun x => Forall frame_ok (snd x)) batch.
Proof.
  induction n; intros i recv batch B; cbn [seq] in B; inversion B; subst; [auto|].
  destruct (IHn _ _ _ H3). split; [cbn [length]; lia|]. constructor; auto. apply H1.
Qed.

(** ** The run *)

Definition both (p : bool * bool) : bool := fst p && snd p.

Lemma m_complete : forall p, (Z.land (m p) 3 =? 3) = both p.
Proof. intros [[|] [|]]; reflexivity. Qed.

Lemma isComplete_eq : forall g fl, length fl = length g -> (length g <= 255)%nat ->
  isComplete g (map m fl) = (0 <? Z.of_nat (length g)) && forallb both fl.
Proof.
  intros g fl L B. unfold isComplete. assert (C : getInterfaceCount g = Z.of_nat (length g)) by (unfold getInterfaceCount; lia).
  rewrite C, map_length, L, Z.eqb_refl. cbn [andb]. f_equal. rewrite Nat2Z.id, firstn_all2 by (rewrite map_length; lia).
  clear. induction fl; cbn [map forallb]; [reflexivity|]. now rewrite m_complete, IHfl.
Qed.

Lemma upds_length : forall fl batch, length (upds fl batch) = length fl.
Proof. induction fl; intros [|x b]; cbn [upds length]; auto. Qed.

Lemma upd_both : forall p x, both p = true -> both (upd p x) = true.
Proof. intros [a b] [r fs] H. unfold upd, both in *. cbn [fst snd] in *. apply andb_true_iff in H. destruct H as [-> ->]. destruct (isSuccess r); reflexivity. Qed.
Lemma upds_both : forall fl batch, forallb both fl = true -> forallb both (upds fl batch) = true.
Proof.
  induction fl as [|p fl IH]; intros [|x b] H; cbn [upds forallb] in *; auto. apply andb_true_iff in H. destruct H as [H1 H2].
  rewrite upd_both, IH; auto.
Qed.
Lemma folds_both : forall h fl, forallb both fl = true -> forallb both (fold_left upds h fl) = true.
Proof. induction h; intros fl H; cbn [fold_left]; auto. apply IHh. now apply upds_both. Qed.

Lemma default_typed : frames_typed (repeat (frame_default mtu) RxFramesLen).
Proof. split; [reflexivity|]. repeat constructor; cbn; lia. Qed.

Definition settled (n : nat) (fl : list (bool * bool)) : result := if (0 <? Z.of_nat n) && forallb both fl then Success else Failure.

Lemma in_time_ok : forall n rounds, rounds_ok n rounds -> rounds_ok n (in_time rounds).
Proof.
  intros n rounds H. induction H; cbn [in_time]; [constructor|]. destruct (rn_timed_out x); constructor; auto.
Qed.

Lemma history_ok : forall rounds g, Forall iface_typed g -> rounds_ok (length g) rounds ->
  exists h, history rounds g = Ret h /\ Forall (fun batch => length batch = length g /\ Forall (fun x => Forall frame_ok (snd x)) batch) h.
Proof.
  induction rounds as [|rn rest IH]; intros g TG R; [exists []; auto|]. inversion R; subst. cbn [history].
  destruct (read_round_ok (length g) 0 (rn_recv rn) g (repeat (frame_default mtu) RxFramesLen)) as (g' & batch & -> & L & T & BT);
    auto using default_typed; [intros k K; apply H1; lia|]. destruct (batch_ok _ _ _ _ BT) as [LB FB]. cbn [bind].
  destruct (IH g') as (h & -> & F); auto; [now rewrite L|]. cbn [bind]. exists (batch :: h). split; [reflexivity|].
  constructor; [auto|]. rewrite L in F. exact F.
Qed.

Lemma run_spec : forall continuous rounds g fl, Forall iface_typed g -> (length g <= 255)%nat -> length fl = length g ->
  rounds_ok (length g) rounds ->
  exists h, history (in_time rounds) g = Ret h /\
    let fin := fold_left upds h fl in
    match run_test continuous rounds g (LoopBack (map m fl) (settled (length g) fl)) with
    | None => in_time rounds = rounds /\ (continuous = true \/ settled (length g) fin = Failure \/ rounds = [])
    | Some UB => False
    | Some (Ret r) => r = settled (length g) fin
    end.
Proof.
  intros continuous. induction rounds as [|rn rest IH]; intros g fl TG B L R.
  - exists []. split; [reflexivity|]. cbn [run_test in_time fold_left]. auto.
  - inversion R as [|? ? R1 R2]; subst. cbn [run_test in_time].
    destruct (rn_timed_out rn) eqn:TO.
    + exists []. split; [reflexivity|]. reflexivity.
    + assert (C : getInterfaceCount g = Z.of_nat (length g)) by (unfold getInterfaceCount; lia). rewrite C, Nat2Z.id. cbn [history].
      destruct (read_round_ok (length g) 0 (rn_recv rn) g (repeat (frame_default mtu) RxFramesLen)) as (g' & batch & -> & L' & T' & BT);
        auto using default_typed; [intros k K; apply R1; lia|]. destruct (batch_ok _ _ _ _ BT) as [LB FB]. cbn [bind].
      assert (E : (if result_not (lb_result (LoopBack (map m fl) (settled (length g) fl)))
                   then evaluate_round 0 batch (lb_found (LoopBack (map m fl) (settled (length g) fl)))
                   else Ret (lb_found (LoopBack (map m fl) (settled (length g) fl)))) =
                  Ret (map m (if result_not (settled (length g) fl) then upds fl batch else fl))).
      { cbn [lb_result lb_found]. destruct (result_not (settled (length g) fl)); [|reflexivity].
        apply (evaluate_round_eq batch [] fl); auto; lia. }
      rewrite E. clear E.
      set (fl' := if result_not (settled (length g) fl) then upds fl batch else fl).
      assert (LF : length fl' = length g') by (unfold fl'; destruct (result_not _); rewrite ?upds_length; lia).
      assert (RR : rounds_ok (length g') rest) by now rewrite L'.
      (* skipping evaluation after success does not change the verdict *)
      assert (SK : forall h, settled (length g) (fold_left upds h fl') = settled (length g) (fold_left upds h (upds fl batch))).
      { intros h. unfold fl'. destruct (result_not (settled (length g) fl)) eqn:Q; [reflexivity|].
        unfold settled in *. destruct (0 <? Z.of_nat (length g)); [|reflexivity]. cbn [andb] in *.
        destruct (forallb both fl) eqn:FB1; [|discriminate].
        rewrite (folds_both h fl FB1), (folds_both h (upds fl batch)); auto. now apply upds_both. }
      assert (PF : (if isComplete g' (map m fl') then Success else settled (length g) fl) = settled (length g) fl').
      { rewrite isComplete_eq by (auto; lia). rewrite L'. unfold settled at 2.
        destruct ((0 <? Z.of_nat (length g)) && forallb both fl') eqn:Q; [reflexivity|].
        unfold settled. destruct ((0 <? Z.of_nat (length g)) && forallb both fl) eqn:Q2; [|reflexivity].
        exfalso. apply andb_true_iff in Q2. destruct Q2 as [Q2 Q3]. rewrite Q2 in Q. cbn [andb] in Q. unfold fl' in Q.
        destruct (result_not _); [rewrite upds_both in Q by auto|]; congruence. }
      assert (TAIL : exists h, history (in_time rest) g' = Ret h /\
        match run_test continuous rest g' (LoopBack (map m fl') (settled (length g) fl')) with
        | None => in_time rest = rest /\ (continuous = true \/ settled (length g) (fold_left upds h (upds fl batch)) = Failure \/ rest = [])
        | Some UB => False
        | Some (Ret r) => r = settled (length g) (fold_left upds h (upds fl batch))
        end).
      { destruct (IH g' fl') as (h & H1 & H2); auto; [lia|]. rewrite L' in H2. cbn zeta in H2. rewrite SK in H2. eauto. }
      destruct TAIL as (h & H1 & H2). rewrite H1. cbn [bind]. exists (batch :: h). split; [reflexivity|]. cbn [fold_left].
      cbn [lb_result] in *. rewrite <- PF in H2.
      assert (FIN : settled (length g) fl' = Success -> settled (length g) (fold_left upds h (upds fl batch)) = Success).
      { rewrite <- SK. unfold settled. destruct (0 <? Z.of_nat (length g)); [|discriminate]. cbn [andb].
        destruct (forallb both fl') eqn:Q; [|discriminate]. now rewrite folds_both. }
      assert (IC : isComplete g' (map m fl') = (0 <? Z.of_nat (length g)) && forallb both fl')
        by (rewrite isComplete_eq by (auto; lia); now rewrite L').
      destruct (isComplete g' (map m fl')); symmetry in IC.
      * destruct continuous; cbn [negb].
        -- destruct (run_test true rest g' _) as [[r|]|]; auto. destruct H2 as [-> H2]. auto.
        -- symmetry. apply FIN. now rewrite <- PF.
      * destruct (run_test continuous rest g' _) as [[r|]|]; auto. destruct H2 as [-> [H2|[H2|H2]]]; auto.
        subst rest. cbn [in_time history] in H1. injection H1 as <-. cbn [fold_left]. split; [reflexivity|].
        right. left. assert (SK0 := SK []). cbn [fold_left] in SK0. rewrite <- SK0. unfold settled. now rewrite IC.
Qed.

(** ** What the flags mean *)

Lemma upds_nth : forall n i recv batch fl k, Forall2 (fun k x => batch_of (recv k) x) (seq i n) batch -> length fl = n -> (k < n)%nat ->
  nth k (upds fl batch) (false, false) =
  (fst (nth k fl (false, false)) || seen 1 (recv (i + k)%nat), snd (nth k fl (false, false)) || seen 2 (recv (i + k)%nat)).
Proof.
  induction n; intros i recv batch fl k B L K; [lia|]. cbn [seq] in B. inversion B; subst.
  destruct fl as [|p fl]; [discriminate|]. cbn [upds]. destruct k as [|k]; cbn [nth].
  - rewrite Nat.add_0_r. apply H1.
  - rewrite (IHn (Datatypes.S i) recv) by (auto; cbn [length] in L; lia). now rewrite Nat.add_succ_r.
Qed.

Lemma history_flags : forall rounds g h fl k, Forall iface_typed g -> rounds_ok (length g) rounds -> history rounds g = Ret h ->
  length fl = length g -> (k < length g)%nat ->
  nth k (fold_left upds h fl) (false, false) =
  (fst (nth k fl (false, false)) || existsb (fun rn => seen 1 (rn_recv rn k)) rounds,
   snd (nth k fl (false, false)) || existsb (fun rn => seen 2 (rn_recv rn k)) rounds).
Proof.
  induction rounds as [|rn rest IH]; intros g h fl k TG R E L K.
  - injection E as <-. cbn [fold_left existsb]. rewrite !orb_false_r. destruct (nth k fl (false, false)); reflexivity.
  - inversion R as [|? ? R1 R2]; subst. cbn [history] in E.
    destruct (read_round_ok (length g) 0 (rn_recv rn) g (repeat (frame_default mtu) RxFramesLen)) as (g' & batch & EB & L' & T' & BT);
      auto using default_typed; [intros i Hi; apply R1; lia|]. rewrite EB in E. cbn [bind] in E.
    apply bind_ret_inv in E. destruct E as [t [E1 E2]]. injection E2 as <-. cbn [fold_left existsb].
    rewrite (IH g' t (upds fl batch)) by (rewrite ?upds_length, ?L'; auto; congruence).
    rewrite (upds_nth (length g) 0 (rn_recv rn) batch fl k) by auto. cbn [fst snd Nat.add]. now rewrite !orb_assoc.
Qed.

Lemma seen_arrived : forall rounds k id, existsb (fun rn => seen id (rn_recv rn k)) rounds = true <-> arrived rounds k id.
Proof.
  intros rounds k id. rewrite existsb_exists. unfold arrived. split.
  - intros (rn & I & H). unfold seen in H. destruct (rn_recv rn k) as [[res errno] msgs] eqn:E.
    apply andb_true_iff in H. destruct H as [H1 H2]. apply existsb_exists in H2. destruct H2 as (km & I2 & H2).
    rewrite !andb_true_iff, negb_true_iff, !Z.eqb_eq in H2. apply Z.ltb_lt in H1. exists rn, res, errno, msgs, km. tauto.
  - intros (rn & res & errno & msgs & km & I & E & P & I2 & Q1 & Q2 & Q3). exists rn. split; auto. unfold seen. rewrite E.
    apply andb_true_iff. split; [now apply Z.ltb_lt|]. apply existsb_exists. exists km. split; auto.
    rewrite Q1, Q2, Q3, !Z.eqb_refl. reflexivity.
Qed.

Lemma folds_length : forall h fl, length (fold_left upds h fl) = length fl.
Proof. induction h; intros; cbn [fold_left]; auto. rewrite IHh. apply upds_length. Qed.

Lemma settled_arrived : forall rounds g h, Forall iface_typed g -> rounds_ok (length g) rounds -> history rounds g = Ret h ->
  (settled (length g) (fold_left upds h (repeat (false, false) (length g))) = Success <-> all_arrived rounds (length g)).
Proof.
  intros rounds g h TG R E. unfold settled, all_arrived.
  set (fin := fold_left upds h (repeat (false, false) (length g))).
  assert (LF : length fin = length g) by (unfold fin; now rewrite folds_length, repeat_length).
  assert (N : forall k, (k < length g)%nat -> both (nth k fin (false, false)) = true <-> arrived rounds k 1 /\ arrived rounds k 2).
  { intros k K. unfold fin. rewrite (history_flags rounds g h) by (auto; apply repeat_length).
    rewrite nth_repeat. unfold both. cbn [fst snd orb]. now rewrite andb_true_iff, !seen_arrived. }
  assert (A : forallb both fin = true <-> forall k, (k < length g)%nat -> arrived rounds k 1 /\ arrived rounds k 2).
  { rewrite forallb_forall. split.
    - intros H k K. apply N; auto. apply H. apply nth_In. lia.
    - intros H p P. apply (In_nth _ _ (false, false)) in P. destruct P as (k & K & <-). apply N; [lia|]. apply H. lia. }
  rewrite <- A. destruct (Z.ltb_spec 0 (Z.of_nat (length g))) as [P|P]; cbn [andb].
  - destruct (forallb both fin); split; intros; try split; try tauto; try lia; try discriminate.
  - split; [discriminate|lia].
Qed.

Lemma run_verdict : forall continuous rounds g, Forall iface_typed g -> (length g <= 255)%nat -> rounds_ok (length g) rounds ->
  match run_test continuous rounds g (LoopBack (repeat 0 (length g)) Failure) with
  | Some UB => False
  | Some (Ret r) => (r = Success <-> all_arrived (in_time rounds) (length g)) /\ (r = Failure <-> ~ all_arrived (in_time rounds) (length g))
  | None => in_time rounds = rounds /\ (continuous = true \/ ~ all_arrived rounds (length g))
  end.
Proof.
  intros continuous rounds g TG B R.
  destruct (run_spec continuous rounds g (repeat (false, false) (length g)) TG B (repeat_length _ _) R) as (h & E & H).
  assert (M : map m (repeat (false, false) (length g)) = repeat 0 (length g)) by (generalize (length g); induction n as [|n IHn]; cbn [repeat map]; [reflexivity|now rewrite IHn]).
  assert (S0 : settled (length g) (repeat (false, false) (length g)) = Failure) by (unfold settled; destruct (length g); reflexivity).
  rewrite M, S0 in H. cbn zeta in H.
  assert (SA := settled_arrived (in_time rounds) g h TG (in_time_ok _ _ R) E).
  destruct (run_test _ _ _ _) as [[r|]|]; auto.
  - subst r. split; auto. rewrite <- SA. unfold settled. destruct (_ && _); split; intros; try congruence; try discriminate.
  - destruct H as [T H]. split; auto. rewrite T in *. destruct H as [H|[H|H]]; auto.
    + right. rewrite <- SA, H. discriminate.
    + right. subst rounds. intros [P A]. destruct (A 0%nat P) as [(rn & _ & _ & _ & _ & [] & _) _].
Qed.

(** ** Starting *)

(** An interface nothing was written to or read from yet. *)
Definition fresh (s : iface) : Prop := exists index name fd, s = iface_make index name fd.

Lemma fresh_typed : forall s, fresh s -> iface_typed s.
Proof. intros s (i & n & fd & ->). apply iface_make_typed. Qed.

Lemma write_test_frames : forall k s, fresh s ->
  exists w, write k s test_frames TxTestFramesLen = Ret w /\ iface_typed (wr_if w) /\
    wr_sent w = Some [test_message 1; test_message 2] /\
    (isSuccess (wr_result w) = true <-> 0 < fst (k [test_message 1; test_message 2])).
Proof.
  intros k s FS. assert (TS := fresh_typed s FS). destruct FS as (index & name & fd & FS).
  assert (TF := test_frames_typed). assert (N : (1 <= TxTestFramesLen <= 4)%nat) by (unfold TxTestFramesLen; lia).
  destruct (write_typed k s test_frames TxTestFramesLen TS TF ltac:(lia)) as (w & W & TW).
  assert (E := write_eq k s test_frames TxTestFramesLen TS TF N). cbv zeta in E.
  assert (ES : firstn TxTestFramesLen (buf_after s test_frames TxTestFramesLen) = [test_message 1; test_message 2]).
  { rewrite FS. unfold buf_after. cbn [iface_make if_buf]. vm_compute. reflexivity. }
  rewrite ES in E.
  exists w. split; [exact W|]. split; [exact TW|].
  rewrite E in W. assert (W' : forall a b : write_out, Ret a = Ret b -> a = b) by congruence. apply W' in W. rewrite <- W.
  clear W'. destruct (k [test_message 1; test_message 2]) as [res errno]. cbn [fst].
  destruct (Z.leb_spec res 0); [|destruct (Z.ltb_spec res (Z.of_nat TxTestFramesLen))]; cbn [wr_sent wr_result]; split; auto;
    split; intros; try lia; try reflexivity.
  destruct ((errno =? ENOBUFS) || (errno =? EAGAIN)); discriminate.
Qed.

Lemma fresh_later : forall i w g, (forall j s, (i <= j)%nat -> nth_error g j = Some s -> fresh s) ->
  forall j s, (S i <= j)%nat -> nth_error (replace_nth i w g) j = Some s -> fresh s.
Proof.
  intros i w g F j s J N. apply (F j s); [lia|]. revert g j J N F. induction i as [|i IH]; intros [|x g] [|j] J N F;
    cbn [replace_nth nth_error] in *; auto; try lia.
  apply (IH g j); auto; [lia|]. intros j' s' L' N'. apply (F (S j') s'); auto. lia.
Qed.

Lemma start_writes_spec : forall n i send g found, Forall iface_typed g -> (i + n <= length g)%nat ->
  (forall j s, (i <= j)%nat -> nth_error g j = Some s -> fresh s) ->
  exists g' found' ok sents, start_writes n i send g found = Ret (g', found', ok, sents) /\
    length g' = length g /\ Forall iface_typed g' /\
    (ok = true -> found' = found ++ repeat 0 n /\ sents = repeat [test_message 1; test_message 2] n) /\
    (ok = true <-> forall k, (i <= k < i + n)%nat -> 0 < fst (send k [test_message 1; test_message 2])).
Proof.
  induction n; intros i send g found TG L FG.
  - cbn [start_writes]. do 4 eexists. split; [reflexivity|]. do 2 (split; auto). split; [|split; [|reflexivity]].
    + intros _. split; [now rewrite app_nil_r|reflexivity].
    + intros _ k K. lia.
  - cbn [start_writes]. unfold group_write.
    destruct (Z.leb_spec (Z.of_nat (length g)) (Z.of_nat i)); [lia|]. rewrite Nat2Z.id.
    destruct (nth_error g i) as [s|] eqn:E; [|apply nth_error_None in E; lia].
    assert (FS : fresh s) by (apply (FG i s); auto).
    destruct (write_test_frames (send i) s FS) as (w & -> & TW & SW & RW). cbn [bind]. rewrite SW.
    assert (TG' : Forall iface_typed (replace_nth i (wr_if w) g)) by now apply replace_nth_Forall.
    assert (LG : length (replace_nth i (wr_if w) g) = length g) by apply replace_nth_length.
    change (negb (result_not (wr_result w))) with (isSuccess (wr_result w)).
    destruct (isSuccess (wr_result w)) eqn:IS.
    + destruct (IHn (Datatypes.S i) send (replace_nth i (wr_if w) g) (found ++ [0])) as (g2 & f2 & ok & sents & -> & L2 & T2 & O1 & O2);
        auto; [lia|apply fresh_later; auto|]. cbn [bind]. do 4 eexists. split; [reflexivity|]. split; [lia|]. split; auto. split.
      * intros OK. destruct (O1 OK) as (F & ->). split; [|reflexivity]. rewrite F, <- app_assoc. reflexivity.
      * rewrite O2. split; intros A k K; [|apply A; lia].
        destruct (Nat.eq_dec k i) as [->|NK]; [now apply RW|apply A; lia].
    + do 4 eexists. split; [reflexivity|]. split; [lia|]. split; auto. split; [discriminate|].
      split; [discriminate|]. intros A. apply RW. apply A. lia.
Qed.

Lemma sorted_length : forall g n, Sorted.StronglySorted (fun s s' => if_index s < if_index s') g ->
  (forall s, In s g -> 0 <= if_index s < Z.of_nat n) -> (length g <= n)%nat.
Proof.
  intros g n S B. rewrite <- (seq_length n 0), <- (map_length (fun s => Z.to_nat (if_index s)) g).
  apply NoDup_incl_length.
  - revert B. induction S as [|s g S IH F]; intros B; cbn [map]; constructor.
    + rewrite in_map_iff. intros (s' & E & I). rewrite Forall_forall in F. specialize (F s' I).
      assert (0 <= if_index s') by (apply B; now right). assert (0 <= if_index s) by (apply B; now left). lia.
    + apply IH. intros s' I. apply B. now right.
  - intros x. rewrite in_map_iff. intros (s & <- & I). apply in_seq. specialize (B s I). lia.
Qed.

Lemma started : forall fuel m kernel send w, (length (m_required m) <= 255)%nat -> (length (m_required m) < fuel)%nat ->
  exists og lb sents w', start_test fuel loopback_make m kernel send w = Some (Ret (og, lb, sents, w')) /\
    match og with
    | None => True
    | Some g => m_own m = true /\ lb = LoopBack (repeat 0 (length g)) Failure /\ Forall iface_typed g /\
        (0 < length g <= 255)%nat /\ sents = repeat [test_message 1; test_message 2] (length g) /\ accepted send (length g)
    end /\
    (m_own m = true -> m_required m <> [] ->
     (forall t tr name, nth_error (m_required m) t = Some name -> comes_up m (Some test_filters) 1 name (kernel t tr)) ->
     accepted send (length (m_required m)) ->
     exists g, og = Some g /\ length g = length (m_required m)).
Proof.
  intros fuel m kernel send w B F. unfold start_test, loopback_make. cbn [lb_found length]. change (0 <? Z.of_nat 0) with false. cbn iota.
  unfold doesReceiveOwnMessages.
  destruct (m_own m) eqn:OWN; cbn [negb].
  2:{ do 4 eexists. split; [reflexivity|]. split; [exact I|]. discriminate. }
  assert (OK : configs_ok (Some test_filters) 1) by (cbn; lia). change (length test_filters) with 1%nat.
  destruct (start_spec m (Some test_filters) 1 kernel None w OK B) as (ans & r & out & w' & ST & LA & AK & RN & RS & RC & ON & OG).
  rewrite ST by auto.
  assert (NF : r = NotFound -> isFailure r = true) by (intros ->; reflexivity).
  assert (SF : r <> NotFound -> isFailure r = false) by (intros N; destruct RC as [R|[R|R]]; [congruence|rewrite R; reflexivity|rewrite R; reflexivity]).
  destruct (Z.eq_dec r NotFound) as [NFR|NFR].
  { rewrite (NF NFR), (ON NFR). do 4 eexists. split; [reflexivity|]. split; [exact I|].
    intros _ NE UP _. exfalso. apply RN in NFR. destruct (m_required m) as [|name rest]; [congruence|].
    inversion NFR as [|? a ? ans' N1 N2]; subst. destruct (AK 0%nat a eq_refl) as (tr & _ & _ & ->). apply N1. now apply UP. }
  rewrite (SF NFR). destruct (OG NFR) as (g & -> & M1 & M2 & SO).
  assert (TG : Forall iface_typed g).
  { apply Forall_forall. intros s S. destruct (M2 s S) as (t & name & a & _ & _ & ->). apply iface_make_typed. }
  assert (LG : (length g <= length (m_required m))%nat).
  { apply sorted_length; auto. intros s S. destruct (M2 s S) as (t & name & a & E & _ & ->). cbn [iface_make if_index].
    assert (t < length (m_required m))%nat by (apply nth_error_Some; congruence). lia. }
  assert (C : getInterfaceCount g = Z.of_nat (length g)) by (unfold getInterfaceCount; lia). rewrite C, Nat2Z.id.
  assert (FG : forall j s, (0 <= j)%nat -> nth_error g j = Some s -> fresh s).
  { intros j s _ N. apply nth_error_In in N. destruct (M2 s N) as (t & name & a & _ & _ & ->). do 3 eexists. reflexivity. }
  destruct (start_writes_spec (length g) 0 send g [] TG ltac:(lia) FG) as (g' & found & ok & sents & -> & L' & T' & O1 & O2).
  assert (UPL : m_required m <> [] ->
     (forall t tr name, nth_error (m_required m) t = Some name -> comes_up m (Some test_filters) 1 name (kernel t tr)) ->
     length g = length (m_required m)).
  { intros NE UP. apply Nat.le_antisymm; auto.
    assert (IN : forall t, (t < length (m_required m))%nat -> In t (map (fun s => Z.to_nat (if_index s)) g)).
    { intros t T. destruct (nth_error (m_required m) t) as [name|] eqn:E; [|apply nth_error_None in E; lia].
      destruct (nth_error ans t) as [a|] eqn:EA; [|apply nth_error_None in EA; lia].
      destruct (AK t a EA) as (tr & _ & _ & ->). assert (IG := proj1 (M1 t name _ E EA) (UP t tr name E)).
      apply in_map_iff. eexists. split; [|exact IG]. cbn [iface_make if_index]. apply Nat2Z.id. }
    rewrite <- (seq_length (length (m_required m)) 0), <- (map_length (fun s => Z.to_nat (if_index s)) g).
    apply NoDup_incl_length; [apply seq_NoDup|]. intros t T. apply IN. apply in_seq in T. lia. }
  destruct (Z.ltb_spec 0 (Z.of_nat (length g))) as [P|P]; [destruct ok|]; cbn [andb].
  - do 4 eexists. split; [reflexivity|]. destruct (O1 eq_refl) as (E1 & E2). split.
    + split; auto. split; [rewrite E1, L'; reflexivity|]. split; auto. split; [lia|]. rewrite L'. split; [exact E2|].
      intros k K. apply (proj1 O2 eq_refl). lia.
    + intros _ NE UP _. exists g'. split; auto. rewrite L'. now apply UPL.
  - do 4 eexists. split; [reflexivity|]. split; [exact I|]. intros _ NE UP SE. specialize (UPL NE UP).
    assert (X : false = true); [|discriminate]. apply O2. intros k K. apply SE. lia.
  - do 4 eexists. split; [reflexivity|]. split; [exact I|]. intros _ NE UP _. exfalso. specialize (UPL NE UP).
    destruct (m_required m); [congruence|]. cbn [length] in UPL. lia.
Qed.

Lemma looped_back_arrived : forall rounds sents k cs id, looped_back rounds sents -> nth_error sents k = Some cs ->
  In (test_message id) cs -> 0 < id <= 2 -> arrived rounds k id.
Proof.
  intros rounds sents k cs id LB N I B.
  destruct (LB k cs _ N I) as (rn & res & errno & msgs & cms & cl & H1 & H2 & H3 & H4).
  exists rn, res, errno, msgs, (looped (test_message id) cms cl). do 4 (split; auto).
  assert (D : id = 1 \/ id = 2) by lia. destruct D as [-> | ->]; repeat split.
Qed.

Lemma end_to_end : forall fuel m kernel send w g lb sents w' continuous rounds, (length (m_required m) <= 255)%nat ->
  (length (m_required m) < fuel)%nat ->
  start_test fuel loopback_make m kernel send w = Some (Ret (Some g, lb, sents, w')) ->
  rounds_ok (length g) rounds -> looped_back (in_time rounds) sents ->
  match run_test continuous rounds g lb with
  | Some (Ret r) => r = Success
  | Some UB => False
  | None => continuous = true /\ in_time rounds = rounds
  end.
Proof.
  intros fuel m kernel send w g lb sents w' continuous rounds B F ST R LB.
  destruct (started fuel m kernel send w B F) as (og & lb' & sents' & w1 & ST' & H & _).
  rewrite ST in ST'. injection ST' as <- <- <- <-. destruct H as (_ & -> & TG & LG & LS & SS).
  assert (AA : all_arrived (in_time rounds) (length g)).
  { split; [lia|]. intros i Hi.
    assert (E : nth_error sents i = Some [test_message 1; test_message 2]) by (rewrite LS; now apply nth_error_repeat).
    split; eapply looped_back_arrived; eauto; [left; reflexivity|lia|right; left; reflexivity|lia]. }
  assert (V := run_verdict continuous rounds g TG ltac:(lia) R).
  destruct (run_test _ _ _ _) as [[r|]|]; auto.
  - now apply V.
  - destruct V as [V1 V2]. rewrite V1 in AA. tauto.
Qed.
