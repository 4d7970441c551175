(** Proofs about the clock and the console of the loopback test. *)
From Coq Require Import ZArith Bool String List Lia Sorted.
From Verif Require Import Outcome ResultModel CInt CanFrameModel SocketCanModel SocketCanSpec SocketCanProofs SocketCanHist
  GroupModel GroupSpec GroupProofs ManagerModel ManagerSpec ManagerProofs LoopBackModel LoopBackSpec LoopBackProofs MainProofs
  TimedModel TimedSpec.
Import ListNotations.
Open Scope Z_scope.

(** The iterations as the rounds of LoopBackModel.v. *)
Definition rounds_of (timeout started : Z) (ticks : list tick) : list round :=
  map (fun k => Round (timeout * ns_per_second <? tk_check k - started) (tk_recv k)) ticks.

Lemma sarith_ok : forall P x, - 2 ^ 63 <= x < 2 ^ 63 -> sarith P 64 x = Ret x.
Proof.
  intros P x H. unfold sarith, sin_rangeb, promoted, smin, smax.
  assert (M : 2 ^ 63 <= 2 ^ (Z.max (int_width P) 64 - 1)) by (apply Z.pow_le_mono_r; lia).
  destruct (Z.leb_spec (- 2 ^ (Z.max (int_width P) 64 - 1)) x); [|lia].
  destruct (Z.leb_spec x (2 ^ (Z.max (int_width P) 64 - 1) - 1)); [reflexivity|lia].
Qed.

Lemma timed_out_eq : forall P timeout started now, 0 <= started <= now -> now < 2 ^ 63 ->
  0 <= timeout * ns_per_second < 2 ^ 64 ->
  timed_out P timeout started now = Ret (timeout * ns_per_second <? now - started).
Proof.
  intros P timeout started now S N T. unfold timed_out. rewrite sarith_ok by lia. cbn [bind]. unfold ucast.
  rewrite !Z.mod_small by lia. reflexivity.
Qed.

(** The clock readings that are left. *)
Definition clock (started last : Z) (ticks : list tick) : Prop :=
  0 <= started <= last /\ last < 2 ^ 63 /\
  StronglySorted Z.le (last :: flat_map (fun k => [tk_check k; tk_now k]) ticks) /\
  Forall (fun t => t < 2 ^ 63) (flat_map (fun k => [tk_check k; tk_now k]) ticks).

Lemma steady_clock : forall started last ticks, steady started last ticks -> clock started last ticks.
Proof.
  intros started last ticks [S F]. unfold readings in *. inversion S as [|? ? S1 F1]; subst. inversion F as [|? ? A F2]; subst.
  inversion F2 as [|? ? B F3]; subst. inversion F1 as [|? ? C F4]; subst. split; [lia|]. split; [lia|]. split; auto.
  eapply Forall_impl; [|exact F3]. cbn. intros; lia.
Qed.

Lemma clock_step : forall started last k rest, clock started last (k :: rest) ->
  last <= tk_check k <= tk_now k /\ tk_now k < 2 ^ 63 /\ clock started (tk_now k) rest /\ clock started last rest.
Proof.
  intros started last k rest (A & B & S & F). cbn [flat_map app] in *.
  inversion S as [|? ? S1 F1]; subst. inversion F1 as [|? ? C F2]; subst. inversion F2 as [|? ? D F3]; subst.
  inversion S1 as [|? ? S2 G1]; subst. inversion G1 as [|? ? E G2]; subst. inversion S2 as [|? ? S3 H1]; subst.
  inversion F as [|? ? I J]; subst. inversion J as [|? ? K L]; subst.
  split; [lia|]. split; [lia|]. split.
  - split; [lia|]. split; [lia|]. split; auto.
  - split; [lia|]. split; [lia|]. split; [|auto]. constructor; auto.
Qed.

Lemma clock_last : forall started last k rest b, clock started last (k :: rest) ->
  clock started (if b : bool then tk_now k else last) rest.
Proof. intros started last k rest b C. apply clock_step in C. destruct b; tauto. Qed.

Lemma run_timed_link : forall P timeout continuous started, wf_platform P -> 0 <= timeout * ns_per_second < 2 ^ 64 ->
  forall ticks last g lb, clock started last ticks ->
  match run_test continuous (rounds_of timeout started ticks) g lb with
  | Some UB => run_timed P timeout continuous started last ticks g lb = UB
  | Some (Ret r) => exists reps, run_timed P timeout continuous started last ticks g lb = Ret (Some r, reps)
  | None => exists reps, run_timed P timeout continuous started last ticks g lb = Ret (None, reps)
  end.
Proof.
  intros P timeout continuous started W T. induction ticks as [|k rest IH]; intros last g lb C; cbn [rounds_of map run_test run_timed].
  - eauto.
  - pose proof (clock_step _ _ _ _ C) as (C1 & C2 & _). pose proof C as (C3 & C4 & _).
    rewrite timed_out_eq by (auto; lia). cbn [bind rn_timed_out rn_recv].
    destruct (timeout * ns_per_second <? tk_check k - started); [eauto|].
    destruct (select_timeout P W (tk_ppoll k) g 100000 true ltac:(lia)) as (r & req & -> & _). cbn [bind].
    rewrite sarith_ok by lia. cbn [bind].
    destruct (read_round _ _ _ _ _) as [[g' batch]|]; [|reflexivity]. cbn [bind].
    destruct (if result_not (lb_result lb) then _ else _) as [found|]; [|reflexivity]. cbn [bind].
    destruct (isComplete g' found); [destruct continuous; cbn [negb]|].
    1, 3: match goal with |- context [run_test ?c ?r ?g ?lb] =>
      specialize (IH (if ns_per_second <=? tk_now k - last then tk_now k else last) g lb (clock_last _ _ _ _ _ C));
      destruct (run_test c r g lb) as [[x|]|] eqn:E end;
      unfold rounds_of in *; rewrite E in IH;
      [destruct IH as [reps IH]; rewrite IH; cbn [bind]; eauto|rewrite IH; reflexivity|destruct IH as [reps IH]; rewrite IH; cbn [bind]; eauto].
    cbn [bind]. eauto.
Qed.

Lemma sorted_le_all : forall a l, StronglySorted Z.le (a :: l) -> forall x, In x l -> a <= x.
Proof. intros a l S x I. inversion S as [|? ? _ F]; subst. rewrite Forall_forall in F. auto. Qed.

Lemma in_time_within : forall timeout started ticks last, clock started last ticks ->
  in_time (rounds_of timeout started ticks) = deliveries (within timeout started ticks).
Proof.
  intros timeout started. induction ticks as [|k rest IH]; intros last C; [reflexivity|].
  pose proof (clock_step _ _ _ _ C) as (C1 & C2 & C3 & C4).
  unfold rounds_of, within in *. cbn [map in_time rn_timed_out List.filter]. unfold ns_per_second in *.
  destruct (Z.ltb_spec (timeout * 1000000000) (tk_check k - started)); destruct (Z.leb_spec (tk_check k - started) (timeout * 1000000000)); try lia.
  - destruct C3 as (_ & _ & S & _).
    assert (N : forall k', In k' rest -> tk_now k <= tk_check k').
    { intros k' I. apply (sorted_le_all _ _ S). apply in_flat_map. exists k'. split; auto. now left. }
    clear -N C1 H. induction rest as [|k' rest IH]; [reflexivity|]. cbn [List.filter].
    pose proof (N k' (or_introl eq_refl)). destruct (Z.leb_spec (tk_check k' - started) (timeout * 1000000000)); [lia|].
    apply IH. intros x I. apply N. now right.
  - cbn [deliveries map]. f_equal. eapply IH; eauto.
Qed.

Lemma rounds_of_ok : forall n timeout started ticks, ticks_ok n ticks -> rounds_ok n (rounds_of timeout started ticks).
Proof. intros n timeout started ticks H. unfold rounds_ok, rounds_of. apply Forall_map. exact H. Qed.

Lemma timed_verdict : forall P timeout continuous started last ticks g, wf_platform P -> 0 <= timeout * ns_per_second < 2 ^ 64 ->
  steady started last ticks -> Forall iface_typed g -> (length g <= 255)%nat -> ticks_ok (length g) ticks ->
  exists r reps, run_timed P timeout continuous started last ticks g (LoopBack (repeat 0 (length g)) Failure) = Ret (r, reps) /\
    match r with
    | Some r => (r = Success <-> all_arrived (deliveries (within timeout started ticks)) (length g)) /\
                (r = Failure <-> ~ all_arrived (deliveries (within timeout started ticks)) (length g))
    | None => within timeout started ticks = ticks /\ (continuous = true \/ ~ all_arrived (deliveries ticks) (length g))
    end.
Proof.
  intros P timeout continuous started last ticks g W T S TG B R. apply steady_clock in S.
  pose proof (run_timed_link P timeout continuous started W T ticks last g (LoopBack (repeat 0 (length g)) Failure) S) as L.
  pose proof (run_verdict continuous (rounds_of timeout started ticks) g TG B (rounds_of_ok _ _ _ _ R)) as V.
  rewrite (in_time_within _ _ _ _ S) in V.
  destruct (run_test _ _ _ _) as [[r|]|]; [|contradiction|].
  - destruct L as [reps ->]. exists (Some r), reps. auto.
  - destruct L as [reps ->]. exists None, reps. split; [reflexivity|]. destruct V as [E V].
    assert (LE : length (within timeout started ticks) = length ticks).
    { apply (f_equal (@length round)) in E. unfold deliveries, rounds_of in E. now rewrite !map_length in E. }
    assert (WE : within timeout started ticks = ticks).
    { unfold within in *. clear -LE. induction ticks as [|k rest IH]; [reflexivity|]. cbn [List.filter] in *.
      destruct (_ <=? _); cbn [length] in *; [f_equal; apply IH; lia|].
      pose proof (filter_length_le _ (fun k => tk_check k - started <=? timeout * 1000000000) rest). lia. }
    split; auto. rewrite WE in E. now rewrite <- E in V.
Qed.

(** ** Reports *)
Lemma run_timed_cases : forall P timeout continuous started last k rest g lb r reps,
  run_timed P timeout continuous started last (k :: rest) g lb = Ret (r, reps) ->
  (exists b, timed_out P timeout started (tk_check k) = Ret b /\ b = true /\ r = Some (lb_result lb) /\ reps = []) \/
  exists g' batch more found,
    read_round (Z.to_nat (getInterfaceCount g)) 0 (tk_recv k) g (repeat (frame_default mtu) RxFramesLen) = Ret (g', batch) /\
    sarith P 64 (tk_now k - last) = Ret (tk_now k - last) /\
    let due := ns_per_second <=? tk_now k - last in
    reps = (if due then [(tk_now k, print_all g)] else []) ++ more /\
    (r = Some Success /\ more = [] \/
     exists lb', run_timed P timeout continuous started (if due then tk_now k else last) rest g' (LoopBack found lb') = Ret (r, more)).
Proof.
  intros P timeout continuous started last k rest g lb r reps E. cbn [run_timed] in E.
  apply bind_ret_inv in E. destruct E as (b & E0 & E). destruct b.
  { left. exists true. injection E as <- <-. auto. }
  right. apply bind_ret_inv in E. destruct E as (sel & _ & E). apply bind_ret_inv in E. destruct E as (p & E1 & E).
  assert (p = tk_now k - last) by (unfold sarith in E1; destruct (sin_rangeb _ _); congruence). subst p.
  apply bind_ret_inv in E. destruct E as ([g' batch] & E2 & E). apply bind_ret_inv in E. destruct E as (found & _ & E).
  apply bind_ret_inv in E. destruct E as ([r' more] & E3 & E). injection E as <- <-.
  exists g', batch, more, found. split; [exact E2|]. split; [exact E1|]. cbn zeta. split; [reflexivity|].
  destruct (isComplete g' found); [destruct continuous; cbn [negb] in E3|]; eauto. injection E3 as <- <-. auto.
Qed.

Lemma reports_spaced : forall P timeout continuous started ticks last g lb r reps,
  run_timed P timeout continuous started last ticks g lb = Ret (r, reps) ->
  Sorted (fun a b => a + 1000000000 <= b) (last :: map fst reps).
Proof.
  intros P timeout continuous started. induction ticks as [|k rest IH]; intros last g lb r reps E.
  - injection E as <- <-. repeat constructor.
  - apply run_timed_cases in E. destruct E as [(b & _ & _ & _ & ->)|(g' & batch & more & found & _ & _ & -> & D)]; [repeat constructor|].
    unfold ns_per_second in *. destruct (Z.leb_spec 1000000000 (tk_now k - last)) as [H|H].
    + assert (S : Sorted (fun a b => a + 1000000000 <= b) (tk_now k :: map fst more)).
      { destruct D as [[_ ->]|(lb' & D)]; [repeat constructor|eauto]. }
      cbn [map app fst]. constructor; auto. constructor. lia.
    + cbn [map app]. destruct D as [[_ ->]|(lb' & D)]; [repeat constructor|eauto].
Qed.

Lemma reports_prompt : forall P timeout continuous started ticks last g lb reps, clock started last ticks ->
  run_timed P timeout continuous started last ticks g lb = Ret (None, reps) ->
  forall k, In k ticks -> exists t, In t (last :: map fst reps) /\ t <= tk_now k < t + 1000000000.
Proof.
  intros P timeout continuous started. induction ticks as [|k rest IH]; intros last g lb reps C E k' I; [destruct I|].
  apply run_timed_cases in E. destruct E as [(b & _ & _ & Q & _)|(g' & batch & more & found & _ & _ & -> & [[Q _]|(lb' & D)])]; try discriminate.
  pose proof (clock_step _ _ _ _ C) as (C1 & C2 & C3 & C4). unfold ns_per_second in *.
  destruct (Z.leb_spec 1000000000 (tk_now k - last)) as [H|H]; cbn [map app fst].
  - destruct I as [<-|I]; [exists (tk_now k); cbn; split; [auto|lia]|].
    destruct (IH _ _ _ _ C3 D k' I) as (t & T & R). exists t. split; [now right|auto].
  - destruct I as [<-|I]; [exists last; cbn; split; [auto|lia]|]. eauto.
Qed.

(** *** Contents *)
Definition seen_on (k : tick) (i : nat) : list kmsg := let '(res, _, msgs) := tk_recv k i in if 0 <? res then msgs else [].

Lemma frames_among_app : forall a b, frames_among (a ++ b) = frames_among a + frames_among b.
Proof. intros. unfold frames_among. rewrite filter_app, app_length. lia. Qed.

Lemma read_stats : forall res errno msgs s out rd n ms, iface_typed s -> frames_typed out -> recv_ok res msgs ->
  read res errno msgs s out = Ret rd -> stats_inv s n ms ->
  stats_inv (rd_if rd) (n + frames_among (if 0 <? res then msgs else [])) (ms ++ (if 0 <? res then msgs else [])).
Proof.
  intros res errno msgs s out rd n ms TS TO RO E SI.
  destruct (stats_call (CallRead res errno msgs out) s n ms TS (conj RO TO) SI) as (r & s' & D & _ & I).
  cbn [do_call] in D. rewrite E in D. cbn [bind] in D. injection D as <- <-. cbn [delivered received] in I.
  rewrite app_nil_r in I. replace (frames_among (if 0 <? res then msgs else [])) with (Z.of_nat (rd_count rd) + 0); [exact I|].
  destruct (Z.ltb_spec 0 res) as [P|P].
  - destruct (read_positive res errno msgs s out TS TO RO P) as (r' & E' & _ & RC & _). assert (r' = rd) by congruence. subst r'.
    rewrite RC. unfold frames_among. lia.
  - destruct (read_negative res errno msgs s out P) as (r' & E' & RC & _). assert (r' = rd) by congruence. subst r'.
    rewrite RC. reflexivity.
Qed.

Lemma read_name : forall res errno msgs s out r, read res errno msgs s out = Ret r -> getInterfaceName (rd_if r) = getInterfaceName s.
Proof.
  intros res errno msgs s out r H. unfold read in H. destruct (res <=? 0).
  - match type of H with Ret ?x = _ => assert (r = x) as -> by congruence end; reflexivity.
  - cbn zeta in H. apply bind_ret_inv in H. destruct H as ([[st out'] k] & _ & H).
    match type of H with Ret ?x = _ => assert (r = x) as -> by congruence end; reflexivity.
Qed.

(** Interface [j] after the reads: unchanged before position [i], read from position [i] on. *)
Lemma read_round_stats : forall n i recv g out g' batch, Forall iface_typed g -> (i + n = length g)%nat -> frames_typed out ->
  (forall k, (i <= k < i + n)%nat -> let '(res, errno, msgs) := recv k in recv_ok res msgs) ->
  read_round n i recv g out = Ret (g', batch) ->
  length g' = length g /\ Forall iface_typed g' /\
  forall j s, nth_error g j = Some s -> exists s', nth_error g' j = Some s' /\ getInterfaceName s' = getInterfaceName s /\
    ((j < i)%nat -> s' = s) /\
    ((i <= j)%nat -> forall c ms, stats_inv s c ms ->
       let new := let '(res, _, msgs) := recv j in if 0 <? res then msgs else [] in
       stats_inv s' (c + frames_among new) (ms ++ new)).
Proof.
  induction n as [|n IH]; intros i recv g out g' batch TG L TO R E; cbn [read_round] in E.
  - injection E as <- <-. split; [auto|]. split; [auto|]. intros j s N. exists s. split; [auto|]. split; [auto|]. split; [auto|].
    intros J. assert (j < length g)%nat by (apply nth_error_Some; congruence). lia.
  - assert (Ri := R i ltac:(lia)). destruct (recv i) as [[res errno] msgs] eqn:ER.
    apply bind_ret_inv in E. destruct E as ([[[g1 r] c] f1] & G & E). apply bind_ret_inv in E. destruct E as ([g2 rest] & T & E).
    injection E as <- <-.
    destruct (group_read_ok res errno msgs g i out TG ltac:(lia) TO Ri) as (g1' & r' & c' & f1' & G' & L1 & T1 & F1 & _).
    assert (g1' = g1 /\ f1' = f1) as [-> ->] by (split; congruence). clear G'.
    unfold group_read in G. destruct (Z.leb_spec (Z.of_nat (length g)) (Z.of_nat i)); [lia|]. rewrite Nat2Z.id in G.
    destruct (nth_error g i) as [s|] eqn:N; [|discriminate]. apply bind_ret_inv in G. destruct G as (rd & RD & G).
    assert (EG : g1 = replace_nth i (rd_if rd) g) by congruence. clear G.
    destruct (IH (S i) recv g1 f1 g2 rest T1 ltac:(lia) F1 ltac:(intros; apply R; lia) T) as (L2 & T2 & A).
    split; [lia|]. split; [auto|]. intros j s' NJ.
    assert (NJ1 : nth_error g1 j = Some (if (j =? i)%nat then rd_if rd else s')).
    { rewrite EG, nth_error_replace_nth. rewrite NJ. destruct (Nat.eqb_spec j i); reflexivity. }
    destruct (A j _ NJ1) as (s2 & N2 & NM & B1 & B2). exists s2. split; [auto|].
    assert (TS : iface_typed s) by (rewrite Forall_forall in TG; apply TG; eapply nth_error_In; eauto).
    destruct (Nat.eqb_spec j i) as [->|NE].
    + assert (s' = s) by congruence. subst s'. split; [rewrite NM; eapply read_name; eauto|]. split; [lia|].
      intros _ c0 ms SI. rewrite (B1 ltac:(lia)), ER. cbn zeta. exact (read_stats _ _ _ _ _ _ _ _ TS TO Ri RD SI).
    + split; [auto|]. split; [intros; apply B1; lia|]. intros J. apply B2. lia.
Qed.

(** What the interfaces of [g] counted when [pre i] was received on interface [i]. *)
Definition counted (g : group) (pre : nat -> list kmsg) : Prop :=
  forall i s, nth_error g i = Some s -> stats_inv s (frames_among (pre i)) (pre i).

Lemma print_all_eq : forall g, (length g <= 255)%nat -> print_all g = map (fun s => (getInterfaceName s, getStatistics s)) g.
Proof.
  intros g L. unfold print_all, getInterfaceCount. rewrite firstn_all2; [reflexivity|]. lia.
Qed.

Lemma reports_contents : forall P timeout continuous started ticks last g lb r reps pre,
  Forall iface_typed g -> (length g <= 255)%nat -> ticks_ok (length g) ticks -> counted g pre ->
  run_timed P timeout continuous started last ticks g lb = Ret (r, reps) ->
  forall t lines, In (t, lines) reps -> exists j k, nth_error ticks j = Some k /\ tk_now k = t /\ length lines = length g /\
    forall i s, nth_error g i = Some s -> exists st, nth_error lines i = Some (getInterfaceName s, st) /\
      let ms := pre i ++ received_on i (firstn j ticks) in
      rx_total st = frames_among ms mod 2 ^ 64 /\ forall e, counter e st = errors_with (class_bit e) ms mod 2 ^ 64.
Proof.
  intros P timeout continuous started. induction ticks as [|k rest IH]; intros last g lb r reps pre TG B R CT E t lines I.
  - injection E as <- <-. destruct I.
  - inversion R as [|? ? R1 R2]; subst.
    apply run_timed_cases in E. destruct E as [(b & _ & _ & _ & ->)|(g' & batch & more & found & RR & _ & -> & D)]; [destruct I|].
    assert (C : getInterfaceCount g = Z.of_nat (length g)) by (unfold getInterfaceCount; lia). rewrite C, Nat2Z.id in RR.
    destruct (read_round_stats (length g) 0 (tk_recv k) g _ g' batch TG eq_refl default_typed ltac:(intros; apply R1; lia) RR) as (L & T & A).
    cbn zeta in I, D. apply in_app_or in I. destruct I as [I|I].
    + destruct (_ <=? _) in I; [|destruct I]. destruct I as [I|[]]. injection I as <- <-. exists 0%nat, k.
      split; [reflexivity|]. split; [reflexivity|]. rewrite print_all_eq, map_length by auto. split; [reflexivity|].
      intros i s N. exists (getStatistics s). split; [rewrite nth_error_map, N; reflexivity|]. cbn zeta.
      cbn [firstn received_on flat_map]. rewrite app_nil_r. destruct (CT i s N) as [X Y]. split; [exact X|exact Y].
    + destruct D as [[_ ->]|(lb' & D)]; [destruct I|].
      assert (CT' : counted g' (fun i => pre i ++ seen_on k i)).
      { intros i s' N'. assert (LI : (i < length g)%nat) by (rewrite <- L; apply nth_error_Some; congruence).
        destruct (nth_error g i) as [s|] eqn:N; [|apply nth_error_None in N; lia].
        destruct (A i s N) as (s2 & N2 & _ & _ & Q). assert (s2 = s') by congruence. subst s2.
        specialize (Q ltac:(lia) _ _ (CT i s N)). cbn zeta in Q. rewrite frames_among_app. exact Q. }
      rewrite <- L in R2, B. destruct (IH _ _ _ _ _ _ T B R2 CT' D t lines I) as (j & k' & J1 & J2 & J3 & J4).
      exists (S j), k'. split; [exact J1|]. split; [auto|]. split; [congruence|]. intros i s N.
      destruct (A i s N) as (s2 & N2 & NM & _). destruct (J4 i s2 N2) as (st & S1 & S2). exists st. rewrite <- NM. split; [auto|].
      cbn zeta in *. cbn [firstn]. unfold received_on at 1 2. cbn [flat_map].
      fold (received_on i (firstn j rest)). change (let '(res, _, msgs) := tk_recv k i in if 0 <? res then msgs else []) with (seen_on k i).
      rewrite <- app_assoc in S2. exact S2.
Qed.

(** *** The group that start_test answers *)
Lemma write_stats : forall send s fs n w, write send s fs n = Ret w -> getStatistics (wr_if w) = getStatistics s.
Proof.
  intros send s fs n w H. unfold write in H. destruct (n =? 0)%nat; [assert (w = WriteOut s BadArgument 0 None) as -> by congruence; reflexivity|].
  apply bind_ret_inv in H. destruct H as (b & _ & H). cbn zeta in H. destruct (send _) as [res errno].
  destruct (res <=? 0); [|destruct (_ <? _)];
    match type of H with Ret ?x = _ => assert (w = x) as -> by congruence end; reflexivity.
Qed.

Lemma start_writes_stats : forall n i send g found g' found' ok sents z,
  start_writes n i send g found = Ret (g', found', ok, sents) ->
  Forall (fun s => getStatistics s = z) g -> Forall (fun s => getStatistics s = z) g'.
Proof.
  induction n as [|n IH]; intros i send g found g' found' ok sents z E F; cbn [start_writes] in E; [congruence|].
  apply bind_ret_inv in E. destruct E as ([[[g1 r] c] sent] & W & E).
  assert (F1 : Forall (fun s => getStatistics s = z) g1).
  { unfold group_write in W. destruct (_ <=? _); [congruence|].
    destruct (nth_error g (Z.to_nat (Z.of_nat i))) as [s|] eqn:N; [|discriminate].
    apply bind_ret_inv in W. destruct W as (w & WR & W). assert (g1 = replace_nth (Z.to_nat (Z.of_nat i)) (wr_if w) g) as -> by congruence.
    rewrite Forall_forall in *. intros x X. apply In_nth_error in X. destruct X as [j X]. rewrite nth_error_replace_nth in X.
    destruct (j =? Z.to_nat (Z.of_nat i))%nat.
    - destruct (nth_error g j) as [y|] eqn:Y; [|discriminate]. injection X as <-. rewrite (write_stats _ _ _ _ _ WR).
      apply F. eapply nth_error_In; eauto.
    - apply F. eapply nth_error_In; eauto. }
  destruct (negb (result_not r)).
  - apply bind_ret_inv in E. destruct E as ([[[g2 found2] ok2] sents2] & E2 & E). assert (g' = g2) as -> by congruence. eauto.
  - congruence.
Qed.

Lemma started_unused : forall fuel m kernel send w g lb sents w', (length (m_required m) <= 255)%nat ->
  (length (m_required m) < fuel)%nat ->
  start_test fuel loopback_make m kernel send w = Some (Ret (Some g, lb, sents, w')) -> Forall unused g.
Proof.
  intros fuel m kernel send w g lb sents w' B F E.
  destruct (started fuel m kernel send w B F) as (og & lb' & sents' & w1 & ST & H & _). rewrite E in ST.
  assert (og = Some g) by congruence. subst og. destruct H as (_ & _ & TG & _). clear ST.
  assert (Z : Forall (fun s => getStatistics s = stats_zero) g).
  { unfold start_test, loopback_make in E. cbn [lb_found length] in E. change (0 <? Z.of_nat 0) with false in E. cbn iota in E.
    destruct (negb (doesReceiveOwnMessages m)); [congruence|].
    assert (OK : configs_ok (Some test_filters) 1) by (cbn; lia). change (length test_filters) with 1%nat in E.
    destruct (start_spec m (Some test_filters) 1 kernel None w OK B) as (ans & r & out & w2 & ST & _ & _ & _ & _ & _ & ON & OG).
    rewrite ST in E by auto. destruct (Z.eq_dec r NotFound) as [N|N].
    - rewrite (ON N) in E. rewrite N in E. change (isFailure NotFound) with true in E. cbn iota in E. congruence.
    - destruct (OG N) as (g0 & -> & _ & M2 & _). destruct (isFailure r).
      { assert (g0 = g) as <- by congruence. apply Forall_forall. intros s S. destruct (M2 s S) as (t & name & a & _ & _ & ->). reflexivity. }
      destruct (start_writes _ 0 send g0 []) as [[[[g1 found] ok] sents1]|] eqn:SW; [|congruence].
      assert (G0 : Forall (fun s => getStatistics s = stats_zero) g0).
      { apply Forall_forall. intros s S. destruct (M2 s S) as (t & name & a & _ & _ & ->). reflexivity. }
      pose proof (start_writes_stats _ _ _ _ _ _ _ _ _ _ SW G0) as G1.
      destruct (_ && ok); [assert (g1 = g) as <- by congruence; exact G1|congruence]. }
  rewrite Forall_forall in *. intros s S. split; auto.
Qed.

Lemma unused_counted : forall g, Forall unused g -> counted g (fun _ => []).
Proof.
  intros g F i s N. rewrite Forall_forall in F. destruct (F s (nth_error_In _ _ N)) as [_ Z]. unfold getStatistics in Z.
  split; rewrite Z; [reflexivity|]. intros []; reflexivity.
Qed.
