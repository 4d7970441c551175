(** Proofs about a program's group and the statistics of its interfaces. *)
From Coq Require Import ZArith Bool String List Lia Sorted.
From Verif Require Import Outcome ResultModel CanFrameModel SocketCanModel SocketCanSpec SocketCanProofs SocketCanHist GroupModel GroupSpec GroupProofs
  ManagerModel ManagerSpec ManagerProofs MainProofs ClientModel ClientSpec ClientProofs TrafficSpec TrafficProofs AccountSpec.
Import ListNotations.
Open Scope Z_scope.

(** ** Identities *)
Lemma write_identity : forall k s fs n w, write k s fs n = Ret w -> identity (wr_if w) = identity s.
Proof.
  intros k s fs n w H. unfold write in H. destruct (n =? 0)%nat; [assert (w = WriteOut s BadArgument 0 None) as -> by congruence; reflexivity|].
  apply bind_ret_inv in H. destruct H as (b & _ & H). destruct (k (firstn n b)) as [res errno].
  destruct (res <=? 0); [|destruct (res <? Z.of_nat n)];
    match type of H with Ret ?x = _ => assert (w = x) as -> by congruence end; reflexivity.
Qed.

Lemma read_identity : forall res errno msgs s out r, read res errno msgs s out = Ret r -> identity (rd_if r) = identity s.
Proof.
  intros res errno msgs s out r H. unfold read in H. destruct (res <=? 0).
  - match type of H with Ret ?x = _ => assert (r = x) as -> by congruence end; reflexivity.
  - cbn zeta in H. apply bind_ret_inv in H. destruct H as ([[st out'] k] & _ & H).
    match type of H with Ret ?x = _ => assert (r = x) as -> by congruence end; reflexivity.
Qed.

Lemma replace_map : forall A (f : iface -> A) g i s s', nth_error g i = Some s -> f s' = f s -> map f (replace_nth i s' g) = map f g.
Proof.
  intros A f. induction g as [|x g IH]; intros [|i] s s' N E; cbn [nth_error] in N; try discriminate; cbn [replace_nth map].
  - congruence.
  - f_equal. eauto.
Qed.

Lemma group_write_identity : forall k g i fs n c g' r c' sent, group_write k g i fs n c = Ret (g', r, c', sent) ->
  map identity g' = map identity g.
Proof.
  intros k g i fs n c g' r c' sent H. unfold group_write in H. destruct (_ <=? i); [congruence|].
  destruct (nth_error g (Z.to_nat i)) as [s|] eqn:N; [|discriminate].
  apply bind_ret_inv in H. destruct H as (w & W & H).
  assert (g' = replace_nth (Z.to_nat i) (wr_if w) g) as -> by congruence.
  eapply replace_map; eauto. eapply write_identity; eauto.
Qed.

Lemma group_read_identity : forall res errno msgs g i out c g' r c' fs, group_read res errno msgs g i out c = Ret (g', r, c', fs) ->
  map identity g' = map identity g.
Proof.
  intros res errno msgs g i out c g' r c' fs R. unfold group_read in R. destruct (_ <=? i); [congruence|].
  destruct (nth_error g (Z.to_nat i)) as [s|] eqn:N; [|discriminate].
  apply bind_ret_inv in R. destruct R as (ro & RO & R).
  assert (g' = replace_nth (Z.to_nat i) (rd_if ro) g) as -> by congruence.
  eapply replace_map; eauto. eapply read_identity; eauto.
Qed.

(** A call other than a successful start or a stop leaves the group's interfaces what they are. *)
Lemma call_identity : forall fuel m o c r c' g', perform fuel m o c = Some (Ret (r, c')) -> cl_group c' = Some g' ->
  (forall configs num kernel r0, o = Start configs num kernel -> r = Started r0 -> isSuccess r0 = false) ->
  exists g, cl_group c = Some g /\ map identity g' = map identity g.
Proof.
  intros fuel m o [p w] r c' g' E G NS. destruct o; cbn [perform cl_group cl_world] in *.
  - destruct (startInterfaceGroup _ _ _ _ _ _ _) as [[[[r0 p'] w']|]|] eqn:S; try discriminate. injection E as <- <-.
    apply start_failed in S; [|eapply NS; eauto]. destruct S as [-> _]. cbn [cl_group] in G. eauto.
  - cbn [stopInterfaceGroup] in E. injection E as <- <-. discriminate.
  - destruct p as [g|]; [|discriminate]. destruct (reconfigureFilters _ _ _ _ _ _) as [[[r0 log]|]|]; try discriminate.
    injection E as <- <-. cbn [cl_group] in G. injection G as <-. eauto.
  - destruct p as [g|]; [|discriminate]. injection E as E. apply bind_ret_inv in E. destruct E as ([[[g1 r0] ct] sent] & W & E).
    injection E as <- <-. cbn [cl_group] in G. injection G as <-. apply group_write_identity in W. eauto.
  - destruct p as [g|]; [|discriminate]. injection E as E. apply bind_ret_inv in E. destruct E as ([[[g1 r0] ct] fr] & W & E).
    injection E as <- <-. cbn [cl_group] in G. injection G as <-. apply group_read_identity in W. eauto.
Qed.

Definition of_manager (m : manager) (ids : list (Z * string * Z)) : Prop :=
  ids <> [] /\ StronglySorted Z.lt (map (fun x => fst (fst x)) ids) /\
  forall i n d, In (i, n, d) ids -> 0 <= i /\ nth_error (m_required m) (Z.to_nat i) = Some n.

Lemma start_group : forall live m configs num kernel fuel p w r p' w' g, (length (m_required m) <= 255)%nat ->
  legal live (Start configs num kernel) (Client p w) ->
  startInterfaceGroup fuel m configs num kernel p w = Some (Ret (r, p', w')) -> isSuccess r = true -> p' = Some g ->
  of_manager m (map identity g) /\ Forall (fun s => getStatistics s = stats_zero) g.
Proof.
  intros live m configs num kernel fuel p w r p' w' g LEN [OK _] E R G.
  assert (NE : g <> []).
  { unfold startInterfaceGroup in E. destruct (start_loop _ _ _ _ _ _ _ _ _) as [[[g' w1]|]|]; try discriminate.
    destruct g' as [|s0 g']; injection E as <- <- <-; [discriminate|]. congruence. }
  destruct (start_spec m configs num kernel p w OK LEN) as (ans & r1 & out & w2 & ST & _ & _ & _ & _ & RR & ON & OG).
  pose proof (start_mono _ _ _ _ _ _ _ _ E (Nat.max fuel (S (length (m_required m)))) ltac:(lia)) as E1.
  rewrite ST in E1 by lia. injection E1 as -> -> ->.
  assert (N : r <> NotFound) by (intros ->; discriminate).
  destruct (OG N) as (g0 & -> & _ & M & SS). assert (g0 = g) as -> by congruence. split.
  - split; [destruct g; [contradiction|discriminate]|]. split.
    + apply sorted_map in SS. rewrite map_map. exact SS.
    + intros i n d I. apply in_map_iff in I. destruct I as (s & EI & I). destruct (M s I) as (t & name & a & T & _ & ->).
      unfold identity in EI. cbn in EI. injection EI as <- <- <-. split; [lia|]. now rewrite Nat2Z.id.
  - apply Forall_forall. intros s I. destruct (M s I) as (t & name & a & _ & _ & ->). reflexivity.
Qed.

Lemma history_identity : forall live m h c g, (length (m_required m) <= 255)%nat -> history live m h c -> cl_group c = Some g ->
  of_manager m (map identity g).
Proof.
  intros live m h c g LEN H. revert g. induction H as [|h c o fuel r c' H IH LG E]; intros g G; [discriminate|].
  assert (D : (exists configs num kernel r0, o = Start configs num kernel /\ r = Started r0 /\ isSuccess r0 = true) \/
    (forall configs num kernel r0, o = Start configs num kernel -> r = Started r0 -> isSuccess r0 = false)).
  { destruct o; try (right; discriminate). destruct r as [r0| | | |]; try (right; discriminate).
    destruct (isSuccess r0) eqn:R0; [left; repeat eexists; eauto|right; congruence]. }
  destruct D as [(configs & num & kernel & r0 & -> & -> & R0)|D].
  - destruct c as [p w]. cbn [perform cl_group cl_world] in E.
    destruct (startInterfaceGroup _ _ _ _ _ _ _) as [[[[r1 p'] w']|]|] eqn:S; try discriminate. injection E as -> <-.
    cbn [cl_group] in G. eapply start_group; eauto.
  - destruct (call_identity _ _ _ _ _ _ _ E G D) as (g0 & G0 & ->). eauto.
Qed.

Lemma history_group : forall live m h c g, (length (m_required m) <= 255)%nat -> history live m h c -> cl_group c = Some g ->
  1 <= getInterfaceCount g <= Z.of_nat (length (m_required m)) /\ getInterfaceCount g = Z.of_nat (length g) /\
  StronglySorted (fun s s' => getInterfaceIndex s < getInterfaceIndex s') g /\
  Forall (fun s => 0 <= getInterfaceIndex s /\ nth_error (m_required m) (Z.to_nat (getInterfaceIndex s)) = Some (getInterfaceName s)) g.
Proof.
  intros live m h c g LEN H G. destruct (history_identity _ _ _ _ _ LEN H G) as (NE & SS & ID).
  assert (F : forall s, In s g -> 0 <= getInterfaceIndex s /\ nth_error (m_required m) (Z.to_nat (getInterfaceIndex s)) = Some (getInterfaceName s)).
  { intros s I. apply (ID _ _ (getSocketDescriptor s)). apply in_map_iff. exists s. auto. }
  assert (SG : StronglySorted (fun s s' => getInterfaceIndex s < getInterfaceIndex s') g).
  { rewrite map_map in SS. cbn [identity fst] in SS. clear -SS. induction g as [|s g IH]; [constructor|]. cbn [map] in SS.
    inversion SS as [|? ? S1 S2]; subst. constructor; [auto|]. rewrite Forall_forall in *. intros x X. apply S2.
    change (getInterfaceIndex x) with (fst (fst (identity x))). exact (in_map (fun x => fst (fst (identity x))) g x X). }
  assert (L : (length g <= length (m_required m))%nat).
  { rewrite <- (map_length getInterfaceIndex). rewrite map_map in SS. apply (sorted_short _ _ 0); [exact SS|].
    intros x X. apply in_map_iff in X. destruct X as (s & <- & I). destruct (F s I) as [A B].
    assert (Z.to_nat (getInterfaceIndex s) < length (m_required m))%nat by (apply nth_error_Some; congruence). lia. }
  assert (1 <= length g)%nat by (destruct g; [exfalso; apply NE; reflexivity|cbn; lia]).
  unfold getInterfaceCount. split; [lia|]. split; [lia|]. split; [exact SG|]. apply Forall_forall. exact F.
Qed.

(** ** Statistics *)
Lemma drops_app : forall a b, reported_drops (a ++ b) = reported_drops a + reported_drops b.
Proof. induction a as [|m a IH]; intros b; [reflexivity|]. cbn [app reported_drops fold_right]. fold (reported_drops (a ++ b)). fold (reported_drops a). rewrite IH. lia. Qed.

Lemma stat_step_dropped : forall st m, kmsg_typed m -> 0 <= rx_dropped st < 2 ^ 64 ->
  rx_dropped (stat_step st m) = u64 (rx_dropped st + fold_right (fun c a => cm_u32 c + a) 0 (List.filter is_drop (km_cmsgs m))).
Proof.
  intros st m (_ & _ & _ & C) R. rewrite <- (cmsg_loop_drop (km_controllen m) (km_cmsgs m) 0 _ C R).
  unfold stat_step. destruct (is_error (km_id m)); reflexivity.
Qed.

Lemma stat_fold_dropped : forall ms st, Forall kmsg_typed ms -> 0 <= rx_dropped st < 2 ^ 64 ->
  rx_dropped (fold_left stat_step ms st) = u64 (rx_dropped st + reported_drops ms).
Proof.
  induction ms as [|m ms IH]; intros st T R; cbn [fold_left reported_drops fold_right].
  - unfold u64. rewrite Z.mod_small; lia.
  - inversion T as [|? ? T1 T2]; subst. rewrite IH; auto; rewrite stat_step_dropped by auto.
    + fold (reported_drops ms). unfold u64. rewrite Z.add_mod_idemp_l by lia. f_equal. lia.
    + apply Z.mod_pos_bound. lia.
Qed.

Definition account (s : iface) (ms : list kmsg) : Prop :=
  stats_inv s (Z.of_nat (length (List.filter (fun m => negb (is_error (km_id m)) && negb (identifier (km_id m) =? 0)) ms))) ms /\
  rx_dropped (getStatistics s) = u64 (reported_drops ms).

Lemma read_account : forall res errno msgs s out rd ms, iface_typed s -> frames_typed out -> recv_ok res msgs ->
  read res errno msgs s out = Ret rd -> account s ms -> account (rd_if rd) (ms ++ (if 0 <? res then msgs else [])).
Proof.
  intros res errno msgs s out rd ms TS TO RO E [SI DI].
  destruct (stats_call (CallRead res errno msgs out) s _ ms TS (conj RO TO) SI) as (r & s' & D & _ & I).
  cbn [do_call] in D. rewrite E in D. cbn [bind] in D. injection D as <- <-. cbn [delivered received] in I.
  rewrite app_nil_r in I. split.
  - rewrite filter_app, app_length, Nat2Z.inj_add. revert I. destruct (Z.ltb_spec 0 res) as [P|P]; intros I.
    + destruct (read_positive res errno msgs s out TS TO RO P) as (r' & E' & _ & RC & _). assert (r' = rd) by congruence. subst r'.
      rewrite RC, Z.add_0_r in I. exact I.
    + destruct (read_negative res errno msgs s out P) as (r' & E' & RC & _). assert (r' = rd) by congruence. subst r'.
      rewrite RC in I. exact I.
  - clear I. rewrite read_eq in E by auto. cbv zeta in E. destruct (Z.leb_spec res 0) as [P|P]; destruct (Z.ltb_spec 0 res); try lia;
      match type of E with Ret ?x = _ => assert (rd = x) as -> by congruence end; cbn [rd_if].
    + rewrite app_nil_r. exact DI.
    + unfold getStatistics in *. cbn [if_stats add_total rx_dropped]. destruct RO as (_ & T & _).
      rewrite stat_fold_dropped; auto; rewrite DI; [|apply Z.mod_pos_bound; lia]. rewrite drops_app. unfold u64.
      rewrite Z.add_mod_idemp_l by lia. reflexivity.
Qed.

Lemma group_write_at : forall k g i fs n c g' r c' sent j s s', group_write k g i fs n c = Ret (g', r, c', sent) ->
  nth_error g j = Some s -> nth_error g' j = Some s' -> if_stats s' = if_stats s.
Proof.
  intros k g i fs n c g' r c' sent j s s' H N N'. unfold group_write in H. destruct (_ <=? i); [congruence|].
  destruct (nth_error g (Z.to_nat i)) as [s0|] eqn:N0; [|discriminate].
  apply bind_ret_inv in H. destruct H as (w & W & H).
  assert (g' = replace_nth (Z.to_nat i) (wr_if w) g) as -> by congruence.
  rewrite nth_error_replace_nth in N'. destruct (write_keeps _ _ _ _ _ W) as [ES _].
  rewrite N in N'. destruct (Nat.eqb_spec j (Z.to_nat i)) as [->|]; [|congruence].
  assert (s' = wr_if w) as -> by congruence. assert (s0 = s) as -> by congruence. exact ES.
Qed.

Lemma account_stats : forall s s' ms, if_stats s' = if_stats s -> account s ms -> account s' ms.
Proof. intros s s' ms E [[A B] C]. unfold account, stats_inv, getStatistics. rewrite E. auto. Qed.

(** ** The account of an interface *)
Lemma ledger : forall live m h c k, (length (m_required m) <= 255)%nat -> NoDup live -> life live m h c k ->
  forall i g s, 0 <= i -> cl_group c = Some g -> nth_error g (Z.to_nat i) = Some s ->
  arrived k (getSocketDescriptor s) = map packet_of (messages_read i h) ++ waiting k (getSocketDescriptor s) /\
  Forall2 delivered_frame (List.filter (fun m => negb (is_error (km_id m)) && negb (identifier (km_id m) =? 0)) (messages_read i h)) (frames_read i h) /\
  account s (messages_read i h).
Proof.
  intros live m h c k LEN ND H. induction H as [|h c k fd p H IH O A|h c k o fuel r c' k' H IH LG E EF]; intros i g s I G NE.
  - discriminate.
  - destruct (IH i g s I G NE) as (T & F). split; [|exact F]. cbn [arrived waiting]. unfold update.
    destruct (Z.eqb_spec (getSocketDescriptor s) fd) as [<-|]; [|auto]. rewrite T. now rewrite app_assoc.
  - assert (HN : forall g, cl_group c = Some g -> NoDup (descriptors g)).
    { intros g0 G0. eapply history_nodup; eauto. eapply life_history; eauto. }
    assert (CO := history_ok _ _ _ _ LEN (life_history _ _ _ _ _ H)).
    destruct o.
    + destruct c as [p w]. cbn [perform cl_group cl_world] in *.
      destruct (startInterfaceGroup _ _ _ _ _ _ _) as [[[[r0 p'] w']|]|] eqn:S; try discriminate.
      injection E as <- <-. cbn [cl_group cl_world effect frames_read messages_read] in *. destruct (isSuccess r0) eqn:R0.
      * split; [symmetry; apply EF|]. split; [constructor|].
        destruct (start_group _ _ _ _ _ _ _ _ _ _ _ _ LEN LG S R0 G) as [_ SZ]. rewrite Forall_forall in SZ.
        specialize (SZ s (nth_error_In _ _ NE)). unfold getStatistics in SZ. split; [|unfold getStatistics; rewrite SZ; reflexivity].
        split; rewrite SZ; [reflexivity|]. intros []; reflexivity.
      * apply start_failed in S; auto. destruct S as [-> FW]. subst k'. eapply IH; eauto.
    + destruct c as [p w]. cbn [perform stopInterfaceGroup] in E. injection E as <- <-. discriminate.
    + destruct c as [p w]. cbn [perform legal cl_group cl_world] in *. destruct p as [g0|]; [|discriminate].
      destruct (reconfigureFilters _ _ _ _ _ _) as [[[r0 log]|]|]; try discriminate. injection E as <- <-.
      cbn [cl_group cl_world effect frames_read messages_read] in *. subst k'. eapply IH; eauto.
    + destruct c as [p w]. cbn [perform legal cl_group cl_world] in *. destruct p as [g0|]; [|discriminate].
      injection E as E. apply bind_ret_inv in E. destruct E as ([[[g' r0] ct] sent] & W & E).
      injection E as <- <-. cbn [cl_group cl_world effect frames_read messages_read] in *. injection G as <-. subst k'.
      pose proof (group_write_fds _ _ _ _ _ _ _ _ _ _ W) as WF. destruct (nth_same _ _ _ _ WF NE) as (s0 & N0 & F0). rewrite F0 in *.
      destruct (IH i g0 s0 I eq_refl N0) as (X1 & X2 & X3). split; [exact X1|]. split; [exact X2|].
      eapply account_stats; [|exact X3]. eapply group_write_at; eauto.
    + destruct (perform_read _ _ _ _ _ _ _ _ _ _ E) as (g0 & g' & w & r0 & ct & fr & -> & -> & -> & W & FD).
      cbn [cl_group cl_world effect frames_read messages_read legal] in *. injection G as <-.
      destruct (nth_same _ _ _ _ FD NE) as (s0 & N0 & F0). rewrite F0 in *. clear F0.
      destruct LG as (_ & BJ & F & RO). destruct (IH i g0 s0 I eq_refl N0) as (T & FS & AC).
      assert (TS : iface_typed s0). { destruct CO as [_ X]. rewrite Forall_forall in X. apply X. eapply nth_error_In; eauto. }
      destruct (Z.eqb_spec index i) as [->|NI]; cbn [andb].
      * rewrite N0 in EF. destruct EF as (rest & RV & ->). cbn [arrived waiting]. rewrite update_same.
        destruct (group_read_at _ _ _ _ _ _ _ _ _ _ _ I W N0) as (rd & RD & -> & -> & ->). rewrite Nat2Z.id.
        assert (AC' : account s (messages_read i h ++ (if 0 <? res then msgs else []))).
        { assert (s = rd_if rd) as ->; [|eapply read_account; eauto].
          unfold group_read in W. destruct (Z.leb_spec (Z.of_nat (length g0)) i).
          - exfalso. assert (Z.to_nat i < length g0)%nat by (apply nth_error_Some; congruence). lia.
          - rewrite N0, RD in W. cbn [bind] in W. assert (g' = replace_nth (Z.to_nat i) (rd_if rd) g0) as -> by congruence.
            rewrite nth_error_replace_nth, N0, Nat.eqb_refl in NE. congruence. }
        destruct RV as [(P & Q & _)|(P & -> & _)].
        -- destruct (Z.ltb_spec 0 res); [|lia].
           destruct (read_positive res errno msgs s0 out TS F RO P) as (rd' & RD' & _ & _ & _ & _ & D & _).
           assert (rd' = rd) by congruence. subst rd'.
           split; [rewrite T, Q, map_app; now rewrite app_assoc|]. split; [|exact AC'].
           rewrite filter_app. apply Forall2_app; [exact FS|exact D].
        -- destruct (Z.ltb_spec 0 res); [lia|]. destruct (read_negative res errno msgs s0 out P) as (rd' & RD' & C0 & _).
           assert (rd' = rd) by congruence. subst rd'. rewrite C0. cbn [firstn]. rewrite !app_nil_r in *. auto.
      * rewrite !app_nil_r.
        assert (AC' : account s (messages_read i h)).
        { assert (s = s0) as ->; [|exact AC]. unfold group_read in W. destruct (_ <=? index); [assert (g' = g0) as -> by congruence; congruence|].
          destruct (nth_error g0 (Z.to_nat index)) as [sj|] eqn:NJ; [|discriminate]. apply bind_ret_inv in W. destruct W as (rd & RD & W).
          assert (g' = replace_nth (Z.to_nat index) (rd_if rd) g0) as -> by congruence.
          rewrite nth_error_replace_nth, N0 in NE. destruct (Nat.eqb_spec (Z.to_nat i) (Z.to_nat index)); [lia|congruence]. }
        destruct (nth_error g0 (Z.to_nat index)) as [sj|] eqn:NJ; [|subst k'; auto].
        destruct EF as (rest & _ & ->). cbn [arrived waiting]. rewrite update_other; [auto|].
        apply (nth_distinct g0 _ _ s0 sj (HN g0 eq_refl) N0 NJ). lia.
Qed.

Lemma errors_packets : forall b ms, errors_with b ms = errors_among b (map packet_of ms).
Proof.
  intros b ms. unfold errors_with, errors_among. f_equal. induction ms as [|k ms IH]; [reflexivity|]. cbn [map List.filter packet_of pk_id].
  destruct (is_error (km_id k) && Z.testbit (km_id k) b); cbn [length]; congruence.
Qed.

Lemma frames_length : forall ms fs, Forall2 delivered_frame ms fs -> length ms = length fs.
Proof. induction 1; [reflexivity|]. cbn [length]. congruence. Qed.

Lemma statistics_of_life : forall live m h c k i g s, (length (m_required m) <= 255)%nat -> NoDup live -> life live m h c k ->
  0 <= i -> cl_group c = Some g -> nth_error g (Z.to_nat i) = Some s ->
  let st := getStatistics s in
  rx_total st = Z.of_nat (length (frames_read i h)) mod 2 ^ 64 /\
  rx_dropped st = reported_drops (messages_read i h) mod 2 ^ 64 /\
  exists taken, arrived k (getSocketDescriptor s) = taken ++ waiting k (getSocketDescriptor s) /\
    taken = map packet_of (messages_read i h) /\
    rx_total st = Z.of_nat (length (List.filter readable taken)) mod 2 ^ 64 /\
    forall e, counter e st = errors_among (class_bit e) taken mod 2 ^ 64.
Proof.
  intros live m h c k i g s LEN ND L I G NE. destruct (ledger _ _ _ _ _ LEN ND L i g s I G NE) as (T & F & (RT & RE) & RD).
  cbv zeta. unfold getStatistics in *. assert (FL := F). apply frames_length in FL. split; [rewrite RT, FL; reflexivity|]. split; [exact RD|].
  exists (map packet_of (messages_read i h)). split; [exact T|]. split; [reflexivity|]. split.
  - rewrite RT, readable_map, map_length. reflexivity.
  - intros e. rewrite RE, errors_packets. reflexivity.
Qed.

(** ** Receive times *)
Lemma times_of_life : forall live m h c k i g s, (length (m_required m) <= 255)%nat -> NoDup live -> life live m h c k ->
  0 <= i -> cl_group c = Some g -> nth_error g (Z.to_nat i) = Some s ->
  map fts (frames_read i h) = map stamp (List.filter (fun m => readable (packet_of m)) (messages_read i h)).
Proof.
  intros live m h c k i g s LEN ND L I G NE. destruct (ledger _ _ _ _ _ LEN ND L i g s I G NE) as (_ & F & _).
  unfold readable. cbn [packet_of pk_id]. clear -F. revert F. generalize (frames_read i h).
  generalize (List.filter (fun m => negb (is_error (km_id m)) && negb (identifier (km_id m) =? 0)) (messages_read i h)).
  intros a b F. induction F as [|x y a b (_ & E & _) F IH]; [reflexivity|]. cbn [map]. congruence.
Qed.
