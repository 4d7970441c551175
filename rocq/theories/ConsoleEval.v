(** The lines about the frames that the loopback test looks at. *)
From Coq Require Import ZArith Bool String Ascii List Lia Sorted.
From Verif Require Import Outcome ResultModel CInt CanFrameModel SocketCanModel SocketCanSpec SocketCanProofs GroupModel ManagerModel
  LoopBackModel LoopBackSpec LoopBackProofs TimedModel TimedSpec TimedProofs ConsoleModel ConsoleSpec ConsoleProofs.
Import ListNotations.
Open Scope string_scope.
Open Scope Z_scope.

(** What a read of one interface finds: how many frames it hands out. *)
Definition counted (recv : Z * Z * list kmsg) (x : result * list frame) : Prop :=
  (if isSuccess (fst x) then Z.of_nat (List.length (snd x)) else 0) =
  frames_among (let '(res, _, msgs) := recv in if 0 <? res then msgs else []).

Lemma Forall2_same : forall A B (R : A -> B -> Prop) xs ys, Forall2 R xs ys -> List.length xs = List.length ys.
Proof. intros A B R xs ys H. induction H; cbn [List.length]; congruence. Qed.

Lemma group_read_count : forall res errno msgs g i out g' r c fs, Forall iface_typed g -> (i < List.length g)%nat -> frames_typed out ->
  recv_ok res msgs -> group_read res errno msgs g (Z.of_nat i) out 0 = Ret (g', r, c, fs) ->
  counted (res, errno, msgs) (r, firstn (Z.to_nat c) fs).
Proof.
  intros res errno msgs g i out g' r c fs TG I TO RO H. unfold group_read in H.
  destruct (Z.leb_spec (Z.of_nat (List.length g)) (Z.of_nat i)); [lia|]. rewrite Nat2Z.id in H.
  destruct (nth_error g i) as [s|] eqn:E; [|apply nth_error_None in E; lia].
  assert (TS : iface_typed s) by (rewrite Forall_forall in TG; apply TG; eapply nth_error_In; eauto).
  apply bind_ret_inv in H. destruct H as (rd & ER & H).
  assert (r = rd_result rd /\ c = Z.of_nat (rd_count rd) /\ fs = rd_frames rd) as (-> & -> & ->) by (repeat split; congruence).
  rewrite Nat2Z.id. unfold counted. cbn [fst snd]. destruct (Z.ltb_spec 0 res) as [P|P].
  - destruct (read_positive res errno msgs s out TS TO RO P) as (r' & ER' & RS & CN & _ & _ & D & _).
    assert (r' = rd) by congruence. subst r'. rewrite RS. cbn [isSuccess]. unfold frames_among.
    pose proof (Forall2_same _ _ _ _ _ D) as LD. change (isSuccess Success) with true. cbn iota. lia.
  - destruct (read_negative res errno msgs s out P) as (r' & ER' & RC & _).
    assert (r' = rd) by congruence. subst r'. rewrite RC. cbn [firstn List.length]. destruct (isSuccess _); reflexivity.
Qed.

Lemma read_round_counts : forall n i recv g out g' batch, Forall iface_typed g -> (i + n <= List.length g)%nat -> frames_typed out ->
  (forall k, (i <= k < i + n)%nat -> let '(res, errno, msgs) := recv k in recv_ok res msgs) ->
  read_round n i recv g out = Ret (g', batch) -> Forall2 (fun k x => counted (recv k) x) (seq i n) batch.
Proof.
  induction n; intros i recv g out g' batch TG L TO R H; cbn [read_round seq] in *.
  - assert (batch = []) as -> by congruence. constructor.
  - assert (Ri := R i ltac:(lia)). destruct (recv i) as [[res errno] msgs] eqn:ER.
    destruct (group_read_ok res errno msgs g i out TG ltac:(lia) TO Ri) as (g1 & r & c & fs & GR & L1 & T1 & F1 & _).
    rewrite GR in H. cbn [bind] in H. apply bind_ret_inv in H. destruct H as ([g2 rest] & RR & H).
    assert (batch = (r, firstn (Z.to_nat c) fs) :: rest) as -> by congruence. constructor.
    + rewrite ER. eapply group_read_count; [exact TG| |exact TO|exact Ri|exact GR]. lia.
    + eapply IHn; [exact T1| |exact F1| |exact RR]; [lia|]. intros k K. apply R. lia.
Qed.

(** The line of one interface. *)
Definition line_of (recv : Z * Z * list kmsg) : list string :=
  let c := frames_among (let '(res, _, msgs) := recv in if 0 <? res then msgs else []) in if 0 <? c then [evaluating c] else [].

Lemma evaluating_lines_eq : forall n k, evaluating_lines n k = flat_map (fun i => line_of (tk_recv k i)) (seq 0 n).
Proof.
  intros n k. unfold evaluating_lines. apply flat_map_ext. intros i. unfold received_on, line_of. cbn [flat_map].
  destruct (tk_recv k i) as [[res errno] msgs]. rewrite app_nil_r. reflexivity.
Qed.

Lemma evaluating_on : forall c, on_evaluation (evaluating c) = true.
Proof.
  intros c. unfold on_evaluation, evaluating. rewrite !has_colon_app. change decimal with number. rewrite number_no_colon.
  generalize (number c ++ " frame(s)..."). intros t. destruct t; reflexivity.
Qed.
Lemma got_all_off : forall nm, on_evaluation (got_all nm) = false.
Proof. reflexivity. Qed.
Lemma statistics_off : forall rows : list report,
  List.filter on_evaluation (flat_map (fun rep => map (fun x => statistics_line (fst x) (snd x)) (snd rep)) rows) = [].
Proof.
  induction rows as [|[t l] rows IH]; [reflexivity|]. cbn [flat_map snd]. rewrite filter_app, IH, app_nil_r.
  induction l as [|x l IHl]; [reflexivity|]. cbn [map List.filter]. unfold on_evaluation at 1. rewrite statistics_colon, andb_false_r. exact IHl.
Qed.

Lemma evaluate_lines : forall g i fs found f out, named g -> evaluate_c g i fs found = Ret (f, out) ->
  exists ls, is_text out ls /\ List.filter on_evaluation ls = [evaluating (Z.of_nat (List.length fs))].
Proof.
  intros g i fs found f out N H. unfold evaluate_c in H. destruct (nth_error found i) as [v|]; [|discriminate].
  set (n := Z.of_nat (List.length fs)) in *. clearbody n.
  assert (OE : one_line (evaluating n)) by (unfold evaluating; change decimal with number; one_line_tac).
  assert (EE : "Evaluating " ++ number n ++ " frame(s)..." ++ endl = evaluating n ++ endl)
    by (unfold evaluating; change decimal with number; now rewrite !append_assoc).
  rewrite EE in H. clear EE. pose proof (evaluating_on n) as EO. set (ev := evaluating n) in *. clearbody ev.
  assert (E1 : List.filter on_evaluation [ev] = [ev]) by (cbn [List.filter]; now rewrite EO).
  destruct (v =? 3).
  { assert (out = ev ++ endl) as -> by congruence. exists [ev]. split; [now apply is_text_line|exact E1]. }
  apply bind_ret_inv in H. destruct H as (v' & _ & H).
  pose proof (group_name_one_line g (Z.of_nat i) N) as O.
  set (nm := group_getInterfaceName g (Z.of_nat i)) in *. clearbody nm.
  destruct (v' =? 3).
  - assert (out = (ev ++ endl) ++ (got_all nm ++ endl)) as -> by (unfold got_all; rewrite (append_assoc "...Got all frames for interface "); congruence).
    exists ([ev] ++ [got_all nm])%list. split; [apply is_text_app; apply is_text_line; auto; unfold got_all; one_line_tac|].
    rewrite filter_app, E1. cbn [List.filter]. rewrite got_all_off. reflexivity.
  - assert (out = ev ++ endl) as -> by (rewrite append_nil_r in H; congruence). exists [ev]. split; [now apply is_text_line|exact E1].
Qed.

Lemma evaluate_round_lines : forall g recv, named g -> forall n batch i found f out,
  Forall2 (fun k x => counted (recv k) x) (seq i n) batch -> evaluate_round_c g i batch found = Ret (f, out) ->
  exists ls, is_text out ls /\ List.filter on_evaluation ls = flat_map (fun k => line_of (recv k)) (seq i n).
Proof.
  intros g recv N. induction n as [|n IH]; intros batch i found f out B H; cbn [seq flat_map] in *.
  - inversion B; subst. cbn [evaluate_round_c] in H. assert (out = "") as -> by congruence. exists []. split; [apply is_text_nil|reflexivity].
  - inversion B as [|? [r fs] ? batch' B1 B2]; subst. cbn [evaluate_round_c] in H.
    apply bind_ret_inv in H. destruct H as ([f1 s1] & E1 & H). apply bind_ret_inv in H. destruct H as ([f2 s2] & E2 & H).
    assert (out = s1 ++ s2) as -> by congruence. destruct (IH _ _ _ _ _ B2 E2) as (l2 & T2 & P2).
    assert (X : exists l1, is_text s1 l1 /\ List.filter on_evaluation l1 = line_of (recv i)).
    { unfold line_of. unfold counted in B1. rewrite <- B1. cbn [fst snd]. unfold isSuccess in *. destruct (negb (result_not r)); cbn [andb] in E1.
      - destruct (0 <? Z.of_nat (List.length fs)) eqn:Q.
        + eapply evaluate_lines; eauto.
        + assert (s1 = "") as -> by congruence. exists []. split; [apply is_text_nil|reflexivity].
      - assert (s1 = "") as -> by congruence. exists []. split; [apply is_text_nil|reflexivity]. }
    destruct X as (l1 & T1 & P1). exists (l1 ++ l2)%list. split; [now apply is_text_app|]. now rewrite filter_app, P1, P2.
Qed.

(** The flags after an iteration, and the iterations that are needed. *)
Definition after (k : tick) (fl : list (bool * bool)) : list (bool * bool) :=
  map (fun i => flags_after [k] i (nth i fl (false, false))) (seq 0 (List.length fl)).
Definition full (fl : list (bool * bool)) : bool := (0 <? Z.of_nat (List.length fl)) && forallb both fl.
Fixpoint needed (fl : list (bool * bool)) (ticks : list tick) : list tick :=
  match ticks with
  | [] => []
  | k :: rest => if full fl then [] else k :: needed (after k fl) rest
  end.
Lemma nth_map_seq : forall A (f : nat -> A) n j d, (j < n)%nat -> nth j (map f (seq 0 n)) d = f j.
Proof.
  intros A f n j d J. rewrite nth_indep with (d' := f 0%nat) by (rewrite map_length, seq_length; lia). now rewrite map_nth, seq_nth by lia.
Qed.
Lemma needed_full : forall fl ticks, full fl = true -> needed fl ticks = [].
Proof. intros fl [|k ticks] H; [reflexivity|]. cbn [needed]. now rewrite H. Qed.

Lemma run_evaluating : forall P timeout continuous started, wf_platform P -> 0 <= timeout * ns_per_second < 2 ^ 64 ->
  forall ticks last g fl r out, clock started last ticks -> plain g -> Forall iface_typed g -> (List.length g <= 255)%nat ->
  ticks_ok (List.length g) ticks -> List.length fl = List.length g ->
  run_console P timeout continuous started last ticks g (LoopBack (map m fl) (settled (List.length g) fl)) = Ret (r, out) ->
  exists ls, is_text out ls /\
  List.filter on_evaluation ls = flat_map (evaluating_lines (List.length g)) (needed fl (within timeout started ticks)).
Proof.
  intros P timeout continuous started W T. induction ticks as [|k rest IH]; intros last g fl r out C N TG B R LF H.
  { cbn [run_console] in H. assert (out = "") as -> by congruence. exists []. split; [apply is_text_nil|]. reflexivity. }
  cbn [run_console] in H. pose proof (clock_step _ _ _ _ C) as (C1 & C2 & C3 & C4). destruct C as (C5 & C6 & C7 & C8).
  rewrite timed_out_eq in H by (auto; lia). cbn [bind] in H. rewrite within_step. unfold ns_per_second in H at 1.
  destruct (Z.ltb_spec (timeout * 1000000000) (tk_check k - started)) as [O|O].
  { destruct (Z.leb_spec (tk_check k - started) (timeout * 1000000000)); [lia|].
    rewrite (within_over timeout started rest (tk_now k)) by (auto; unfold ns_per_second; lia).
    assert (OUT : out = ("Test timed out after " ++ number timeout) ++ endl) by (rewrite append_assoc; congruence).
    exists ["Test timed out after " ++ number timeout]. split; [rewrite OUT; apply is_text_line; one_line_tac|]. reflexivity. }
  destruct (Z.leb_spec (tk_check k - started) (timeout * 1000000000)); [|lia].
  apply bind_ret_inv in H. destruct H as (sel & _ & H). apply bind_ret_inv in H. destruct H as (period & _ & H).
  apply bind_ret_inv in H. destruct H as ([g' batch] & RR & H).
  apply bind_ret_inv in H. destruct H as ([f s] & EV & H). apply bind_ret_inv in H. destruct H as ([r' more] & MR & H).
  pose proof (stats_printed (ns_per_second <=? period) (tk_now k) g N) as TP. cbn zeta in TP.
  set (printed := if ns_per_second <=? period then String.concat _ _ else _) in *. clearbody printed.
  set (rows := if ns_per_second <=? period then [_] else _) in *. clearbody rows.
  assert (OUT : out = printed ++ s ++ more) by congruence. clear H.
  inversion R as [|? ? R1 R2]; subst.
  assert (CG : getInterfaceCount g = Z.of_nat (List.length g)) by (unfold getInterfaceCount; lia). rewrite CG, Nat2Z.id in RR.
  destruct (read_round_ok (List.length g) 0 (tk_recv k) g (repeat (frame_default mtu) RxFramesLen)) as (g1 & b1 & RR1 & L' & T' & BT);
    auto using default_typed; [intros j J; apply R1; lia|].
  assert (g1 = g' /\ b1 = batch) as [-> ->] by (split; congruence). clear RR1.
  assert (BC : Forall2 (fun j x => counted (tk_recv k j) x) (seq 0 (List.length g)) batch)
    by (eapply read_round_counts; [exact TG|lia|apply default_typed| |exact RR]; intros j J; apply R1; lia).
  destruct (batch_ok _ _ _ _ BT) as [LB FB].
  pose proof (read_round_names _ _ _ _ _ _ _ RR) as NN.
  assert (N' : plain g') by (eapply plain_names; eauto).
  assert (M' : named g') by now apply plain_named.
  cbn [lb_result lb_found] in EV, MR.
  assert (FU : full fl = match settled (List.length g) fl with x => negb (result_not x) end).
  { unfold full, settled. rewrite LF. destruct (_ && _); reflexivity. }
  (* this iteration *)
  assert (X : exists fl' ls, f = map m fl' /\ List.length fl' = List.length g /\ is_text s ls /\
    List.filter on_evaluation ls = (if full fl then [] else evaluating_lines (List.length g) k) /\
    (if full fl then fl' = fl else fl' = after k fl) /\
    (settled (List.length g) fl = Success -> settled (List.length g) fl' = Success)).
  { rewrite FU. destruct (result_not (settled (List.length g) fl)) eqn:RN; cbn [negb].
    - destruct (evaluate_round_said g' "" M' batch [] fl) as (o & ls & E & _ & _); [lia|cbn [List.length]; lia|auto|].
      cbn [List.length app] in E. rewrite E in EV.
      assert (f = map m (upds fl batch) /\ s = o) as [-> ->] by (split; congruence).
      destruct (evaluate_round_lines g' (tk_recv k) M' _ _ _ _ _ _ BC E) as (l1 & TX & FX).
      exists (upds fl batch), l1. split; [reflexivity|]. split; [now rewrite upds_length|]. split; [exact TX|].
      split; [now rewrite evaluating_lines_eq|]. split.
      + unfold after. apply nth_ext with (d := (false, false)) (d' := (false, false)).
        { now rewrite map_length, seq_length, upds_length. }
        intros j J. rewrite upds_length, LF in J. rewrite (upds_nth (List.length g) 0 (tk_recv k) batch fl j) by auto.
        rewrite (nth_map_seq _ (fun i => flags_after [k] i (nth i fl (false, false))) (List.length fl) j) by lia. unfold flags_after. cbn [existsb Nat.add]. now rewrite !orb_false_r.
      + intros Q. rewrite Q in RN. discriminate.
    - assert (f = map m fl /\ s = "") as [-> ->] by (split; congruence). exists fl, []. split; [reflexivity|]. split; [auto|].
      split; [apply is_text_nil|]. auto. }
  destruct X as (fl' & ls & -> & LF' & TX & FX & FL & ST).
  assert (SF : (if isComplete g' (map m fl') then Success else settled (List.length g) fl) = settled (List.length g) fl').
  { rewrite isComplete_eq by lia. rewrite L'. unfold settled at 2. destruct (_ && forallb both fl') eqn:Q; [reflexivity|].
    unfold settled in ST. rewrite Q in ST. unfold settled. destruct (_ && forallb both fl); [discriminate ST; reflexivity|reflexivity]. }
  assert (Y : exists lm, is_text more lm /\
    List.filter on_evaluation lm = flat_map (evaluating_lines (List.length g)) (needed fl' (within timeout started rest))).
  { assert (IH' : forall last' r'' , last' = tk_now k \/ last' = last ->
      run_console P timeout continuous started last' rest g' (LoopBack (map m fl') (settled (List.length g) fl')) = Ret (r'', more) ->
      exists lm, is_text more lm /\
      List.filter on_evaluation lm = flat_map (evaluating_lines (List.length g)) (needed fl' (within timeout started rest))).
    { intros last' r'' LL RC. rewrite <- L' in RC |- *. eapply (IH last' g' fl'); [| | | | | |exact RC]; auto; try lia.
      - destruct LL as [-> | ->]; auto.
      - rewrite L'. exact R2. }
    assert (LL : (if ns_per_second <=? period then tk_now k else last) = tk_now k \/ (if ns_per_second <=? period then tk_now k else last) = last)
      by (destruct (_ <=? _); auto).
    destruct (isComplete g' (map m fl')) eqn:IC.
    - destruct (negb continuous).
      + assert (more = "") as -> by congruence. exists []. split; [apply is_text_nil|].
        rewrite isComplete_eq in IC by lia. rewrite needed_full; [reflexivity|]. unfold full. rewrite LF', <- L'. exact IC.
      + rewrite SF in MR. eapply IH'; [exact LL|exact MR].
    - rewrite SF in MR. eapply IH'; [exact LL|exact MR]. }
  destruct Y as (lm & TM & FM). eexists. split; [apply is_text_app; [exact TP|apply is_text_app; [exact TX|exact TM]]|].
  rewrite !filter_app, statistics_off, FX, FM. cbn [app needed]. destruct (full fl) eqn:FF.
  - subst fl'. rewrite needed_full by exact FF. reflexivity.
  - subst fl'. reflexivity.
Qed.

(** The iterations that are needed are those until both frames arrived on all interfaces. *)
Lemma after_length : forall k fl, List.length (after k fl) = List.length fl.
Proof. intros k fl. unfold after. now rewrite map_length, seq_length. Qed.
Definition after_all (ticks : list tick) (fl : list (bool * bool)) : list (bool * bool) := fold_left (fun f k => after k f) ticks fl.

Lemma needed_spec : forall ticks fl, exists later, ticks = (needed fl ticks ++ later)%list /\
  (later = [] \/ full (after_all (needed fl ticks) fl) = true) /\
  (needed fl ticks <> [] -> full (after_all (removelast (needed fl ticks)) fl) = false).
Proof.
  induction ticks as [|k rest IH]; intros fl; cbn [needed].
  - exists []. split; [reflexivity|]. split; [auto|]. intros Q. contradiction.
  - destruct (full fl) eqn:F.
    + exists (k :: rest). split; [reflexivity|]. split; [right; exact F|]. intros Q. contradiction.
    + destruct (IH (after k fl)) as (later & E & D & Q). exists later. split; [cbn [app]; now rewrite <- E|].
      split; [destruct D as [D|D]; [auto|right; exact D]|]. intros _.
      destruct (needed (after k fl) rest) as [|x xs] eqn:NE; [exact F|]. apply Q. discriminate.
Qed.

Lemma after_nth : forall ticks fl i, (i < List.length fl)%nat ->
  nth i (after_all ticks fl) (false, false) = flags_after ticks i (nth i fl (false, false)).
Proof.
  induction ticks as [|k rest IH]; intros fl i I; cbn [after_all fold_left].
  - unfold flags_after. cbn [existsb]. rewrite !orb_false_r. destruct (nth i fl _); reflexivity.
  - change (fold_left (fun f k => after k f) rest (after k fl)) with (after_all rest (after k fl)).
    rewrite IH by (rewrite after_length; exact I). unfold after.
    rewrite (nth_map_seq _ (fun i => flags_after [k] i (nth i fl (false, false))) (List.length fl) i) by lia. unfold flags_after. cbn [existsb fst snd]. now rewrite !orb_false_r, <- !orb_assoc.
Qed.
Lemma after_all_length : forall ticks fl, List.length (after_all ticks fl) = List.length fl.
Proof. induction ticks as [|k rest IH]; intros fl; [reflexivity|]. cbn. change (List.length (after_all rest (after k fl)) = List.length fl). now rewrite IH, after_length. Qed.

Lemma full_arrived : forall ticks n, full (after_all ticks (repeat (false, false) n)) = true <-> all_arrived (deliveries ticks) n.
Proof.
  intros ticks n. unfold full, all_arrived. rewrite after_all_length, repeat_length, andb_true_iff, Z.ltb_lt, forallb_forall.
  assert (E : forall i, (i < n)%nat -> both (nth i (after_all ticks (repeat (false, false) n)) (false, false)) = true <->
    arrived (deliveries ticks) i 1 /\ arrived (deliveries ticks) i 2).
  { intros i I. rewrite after_nth, nth_repeat by (rewrite repeat_length; exact I). unfold both, flags_after. cbn [fst snd orb].
    rewrite !deliveries_seen, andb_true_iff, !seen_arrived. reflexivity. }
  split.
  - intros [A B]. split; [lia|]. intros i I. apply E; [exact I|]. apply B. apply nth_In. now rewrite after_all_length, repeat_length.
  - intros [A B]. split; [lia|]. intros p IP. apply (In_nth _ _ (false, false)) in IP. destruct IP as (i & I & <-).
    rewrite after_all_length, repeat_length in I. apply E; auto.
Qed.

Lemma evaluations_reported : forall P timeout continuous started last ticks g r out,
  wf_platform P -> 0 <= timeout * 1000000000 < 2 ^ 64 -> steady started last ticks -> Forall iface_typed g -> (List.length g <= 255)%nat ->
  ticks_ok (List.length g) ticks -> Forall (fun s => one_line (getInterfaceName s) /\ has_colon (getInterfaceName s) = false) g ->
  run_console P timeout continuous started last ticks g (LoopBack (repeat 0 (List.length g)) Failure) = Ret (r, out) ->
  exists used later, within timeout started ticks = (used ++ later)%list /\
    (later = [] \/ all_arrived (deliveries used) (List.length g)) /\ ~ all_arrived (deliveries (removelast used)) (List.length g) /\
    List.filter on_evaluation (lines out) = flat_map (evaluating_lines (List.length g)) used.
Proof.
  intros P timeout continuous started last ticks g r out W T S TG B R N H.
  assert (M : map m (repeat (false, false) (List.length g)) = repeat 0 (List.length g)) by (generalize (List.length g); induction n as [|n IHn]; cbn [repeat map]; [reflexivity|now rewrite IHn]).
  assert (S0 : settled (List.length g) (repeat (false, false) (List.length g)) = Failure) by (unfold settled; destruct (List.length g); reflexivity).
  rewrite <- M, <- S0 in H. apply steady_clock in S.
  destruct (run_evaluating P timeout continuous started W T ticks last g _ r out S N TG B R (repeat_length _ _) H) as (ls & TX & F).
  destruct (needed_spec (within timeout started ticks) (repeat (false, false) (List.length g))) as (later & E & D & Q).
  set (used := needed _ _) in *. exists used, later. split; [exact E|]. split; [|split].
  - destruct D as [D|D]; [auto|right]. now apply full_arrived.
  - intros A. apply full_arrived in A. destruct used as [|x xs].
    + apply full_arrived in A. destruct A as [A0 A]. destruct (A 0%nat A0) as [(rn & res & e & ms & km & [] & _) _].
    + rewrite Q in A by discriminate. discriminate.
  - rewrite (is_text_lines _ _ TX). exact F.
Qed.
