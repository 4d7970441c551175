(** Proofs about the traffic a program sees. *)
From Coq Require Import ZArith Bool String List Lia.
From Verif Require Import Outcome ResultModel CanFrameModel SocketCanModel SocketCanSpec SocketCanProofs GroupModel GroupSpec GroupProofs
  ManagerModel ManagerSpec ManagerProofs MainProofs ClientModel ClientSpec ClientProofs TrafficSpec.
Import ListNotations.
Open Scope Z_scope.

Lemma life_history : forall live m h c k, life live m h c k -> history live m h c.
Proof. induction 1; [apply h_begin|auto|eapply h_call; eauto]. Qed.

Lemma nth_fd : forall (g g' : group) i s s', map getSocketDescriptor g' = map getSocketDescriptor g ->
  nth_error g i = Some s -> nth_error g' i = Some s' -> getSocketDescriptor s' = getSocketDescriptor s.
Proof.
  intros g g' i s s' E A B. apply (map_nth_error getSocketDescriptor) in A. apply (map_nth_error getSocketDescriptor) in B.
  rewrite E in B. congruence.
Qed.

Lemma nth_same : forall (g g' : group) i s', map getSocketDescriptor g' = map getSocketDescriptor g ->
  nth_error g' i = Some s' -> exists s, nth_error g i = Some s /\ getSocketDescriptor s' = getSocketDescriptor s.
Proof.
  intros g g' i s' E B. destruct (nth_error g i) as [s|] eqn:A.
  - exists s. split; auto. eapply nth_fd; eauto.
  - exfalso. apply nth_error_None in A. assert (i < length g')%nat by (apply nth_error_Some; congruence).
    apply (f_equal (@length Z)) in E. rewrite !map_length in E. lia.
Qed.

Lemma nth_distinct : forall (g : group) i j s s', NoDup (descriptors g) -> nth_error g i = Some s -> nth_error g j = Some s' ->
  i <> j -> getSocketDescriptor s <> getSocketDescriptor s'.
Proof.
  intros g i j s s' N A B D E. apply D. unfold descriptors in N. rewrite NoDup_nth_error in N. apply N.
  - rewrite map_length. apply nth_error_Some. congruence.
  - rewrite (map_nth_error _ _ _ A), (map_nth_error _ _ _ B). congruence.
Qed.

Lemma receives_rest : forall q res errno msgs rest p, receives q res errno msgs rest -> In p rest -> In p q.
Proof.
  intros q res errno msgs rest p [(_ & -> & _)|(_ & -> & _)] I; auto. apply in_or_app. now right.
Qed.

(** What a read does, with the group's descriptors. *)
Lemma perform_read : forall fuel m res errno msgs i out c r c', perform fuel m (Read res errno msgs i out) c = Some (Ret (r, c')) ->
  exists g g' w r0 ct fr, c = Client (Some g) w /\ c' = Client (Some g') w /\ r = WasRead r0 ct fr /\
    group_read res errno msgs g i out 0 = Ret (g', r0, ct, fr) /\ map getSocketDescriptor g' = map getSocketDescriptor g.
Proof.
  intros fuel m res errno msgs i out [p w] r c' E. cbn [perform cl_group cl_world] in E. destruct p as [g|]; [|discriminate].
  injection E as E. apply bind_ret_inv in E. destruct E as ([[[g' r0] ct] fr] & W & E).
  injection E as <- <-. exists g, g', w, r0, ct, fr. do 4 (split; auto). eapply group_read_fds; eauto.
Qed.

Lemma group_read_at : forall res errno msgs g i out g' r0 ct fr s, 0 <= i -> group_read res errno msgs g i out 0 = Ret (g', r0, ct, fr) ->
  nth_error g (Z.to_nat i) = Some s -> exists rd, read res errno msgs s out = Ret rd /\ r0 = rd_result rd /\ ct = Z.of_nat (rd_count rd) /\
    fr = rd_frames rd.
Proof.
  intros res errno msgs g i out g' r0 ct fr s I W NE. unfold group_read in W.
  assert (LI : (Z.to_nat i < length g)%nat) by (apply nth_error_Some; congruence).
  destruct (Z.leb_spec (Z.of_nat (length g)) i); [lia|]. rewrite NE in W.
  apply bind_ret_inv in W. destruct W as (rd & RD & W). injection W as <- <- <- <-. eauto.
Qed.

Lemma update_same : forall f fd v, update f fd v fd = v.
Proof. intros. unfold update. now rewrite Z.eqb_refl. Qed.
Lemma update_other : forall f fd v x, x <> fd -> update f fd v x = f x.
Proof. intros f fd v x N. unfold update. destruct (Z.eqb_spec x fd); [contradiction|reflexivity]. Qed.

(** ** What waits after the queue was empty *)
Lemma drained_waiting : forall live m h c k, (length (m_required m) <= 255)%nat -> NoDup live -> life live m h c k ->
  forall i g s p, 0 <= i -> drained i h -> cl_group c = Some g -> nth_error g (Z.to_nat i) = Some s ->
    In p (waiting k (getSocketDescriptor s)) -> admits (w_filters (cl_world c)) (getSocketDescriptor s) p.
Proof.
  intros live m h c k LEN ND H. induction H as [|h c k fd p H IH O A|h c k o fuel r c' k' H IH LG E EF]; intros i g s q I D G NE Q.
  - destruct D.
  - cbn [waiting] in Q. unfold update in Q. destruct (Z.eqb_spec (getSocketDescriptor s) fd) as [<-|N].
    + apply in_app_or in Q. destruct Q as [Q|[<-|[]]]; [|exact A]. eapply IH; eauto.
    + eapply IH; eauto.
  - assert (HN : forall g, cl_group c = Some g -> NoDup (descriptors g)).
    { intros g0 G0. eapply history_nodup; eauto. eapply life_history; eauto. }
    destruct o.
    + destruct c as [p w]. cbn [perform legal cl_group cl_world] in *.
      destruct (startInterfaceGroup _ _ _ _ _ _ _) as [[[[r0 p'] w']|]|] eqn:S; try discriminate.
      injection E as <- <-. cbn [cl_group cl_world effect drained] in *. destruct (isSuccess r0) eqn:R0; [destruct D|].
      apply start_failed in S; auto. destruct S as [-> FW]. subst k'. rewrite FW. eapply IH; eauto.
    + destruct D.
    + destruct D.
    + destruct c as [p w]. cbn [perform legal cl_group cl_world] in *. destruct p as [g0|]; [|discriminate].
      injection E as E. apply bind_ret_inv in E. destruct E as ([[[g' r0] ct] sent] & W & E).
      injection E as <- <-. cbn [cl_group cl_world effect drained] in *. injection G as <-. subst k'.
      apply group_write_fds in W. destruct (nth_same _ _ _ _ W NE) as (s0 & N0 & F0). rewrite F0 in *. eapply IH; eauto.
    + destruct (perform_read _ _ _ _ _ _ _ _ _ _ E) as (g0 & g' & w & r0 & ct & fr & -> & -> & -> & W & FD).
      cbn [cl_group cl_world effect drained] in *. injection G as <-.
      destruct (nth_same _ _ _ _ FD NE) as (s0 & N0 & F0). rewrite F0 in *.
      destruct (nth_error g0 (Z.to_nat index)) as [sj|] eqn:NJ.
      * destruct EF as (rest & RV & ->). cbn [waiting] in Q.
        destruct (Z.eq_dec (getSocketDescriptor s0) (getSocketDescriptor sj)) as [SF|SF].
        -- assert (IJ : index = i).
           { destruct (Nat.eq_dec (Z.to_nat i) (Z.to_nat index)) as [X|X].
             - destruct LG as (_ & B & _). lia.
             - exfalso. exact (nth_distinct g0 _ _ s0 sj (HN g0 eq_refl) N0 NJ X SF). }
           subst index. assert (s0 = sj) by congruence. subst sj. rewrite update_same in Q.
           destruct D as [[_ D]|D].
           ++ destruct (group_read_at _ _ _ _ _ _ _ _ _ _ _ I W N0) as (rd & RD & -> & _).
              destruct RV as [(P & _)|(P & -> & RV)].
              ** exfalso. destruct LG as (_ & _ & F & RO).
                 assert (TS : iface_typed s0).
                 { assert (CO := history_ok _ _ _ _ LEN (life_history _ _ _ _ _ H)). destruct CO as [_ T].
                   rewrite Forall_forall in T. apply T. eapply nth_error_In; eauto. }
                 destruct (read_positive res errno msgs s0 out TS F RO P) as (rd' & RD' & RS & _).
                 assert (rd' = rd) by congruence. subst rd'. rewrite RS in D. discriminate.
              ** destruct (read_negative res errno msgs s0 out P) as (rd' & RD' & _ & _ & _ & RN & _).
                 assert (rd' = rd) by congruence. subst rd'. apply RN in D. destruct D as [D1 D2].
                 rewrite (RV D1 D2) in Q. destruct Q.
           ++ eapply IH; eauto. eapply receives_rest; eauto.
        -- rewrite update_other in Q by auto. destruct D as [[-> _]|D]; [congruence|]. eapply IH; eauto.
      * subst k'. destruct D as [[-> _]|D]; [congruence|]. eapply IH; eauto.
Qed.

Lemma drained_reads : forall live m h c k res errno msgs i out r count frames fs, (length (m_required m) <= 255)%nat -> NoDup live ->
  life live m ((Read res errno msgs i out, WasRead r count frames) :: h) c k ->
  in_force h = Some fs -> Forall id_mask fs -> Z.of_nat (length fs) < 2 ^ 29 -> drained i h ->
  Forall (fun f => is_extended (fid f) = true /\ Exists (selected (fid f)) fs) (firstn (Z.to_nat count) frames).
Proof.
  intros live m h c k res errno msgs i out r count frames fs LEN ND L IF IM B D.
  remember ((Read res errno msgs i out, WasRead r count frames) :: h) as h' eqn:EH.
  induction L as [|h1 c k fd p L IH O A|h1 c k o fuel r1 c' k' L _ LG E EF]; [discriminate|auto|].
  injection EH as -> -> ->.
  assert (H := life_history _ _ _ _ _ L).
  pose proof LG as LG'. cbn [legal] in LG. destruct LG as (_ & I & F & RO).
  destruct (perform_read _ _ _ _ _ _ _ _ _ _ E) as (g & g' & w & r0 & ct & fr & -> & -> & ER & W & FD).
  injection ER as <- <- <-. cbn [effect cl_group] in EF.
  destruct (nth_error g (Z.to_nat i)) as [s|] eqn:NE.
  - destruct EF as (rest & [(_ & Q & _)|(P & _)] & _).
    + refine (history_read live m h _ fs fuel res errno msgs i out r count frames _ g s LEN ND H IF IM B eq_refl NE LG' _ E).
      intros km KI KE.
      assert (AD : admits (w_filters w) (getSocketDescriptor s) (packet_of km)).
      { refine (drained_waiting live m h _ k LEN ND L i g s _ _ D eq_refl NE _); [lia|]. rewrite Q. apply in_or_app. left.
        now apply in_map. }
      destruct AD as [AD|AD]; [cbn [packet_of pk_id] in AD; congruence|exact AD].
    + destruct (group_read_at _ _ _ _ _ _ _ _ _ _ _ (proj1 I) W NE) as (rd & RD & -> & -> & ->).
      destruct (read_negative res errno msgs s out P) as (rd' & RD' & C0 & _).
      assert (rd' = rd) by congruence. subst rd'. rewrite C0. constructor.
  - unfold group_read in W. destruct (Z.leb_spec (Z.of_nat (length g)) i).
    + assert (count = 0) as -> by congruence. constructor.
    + exfalso. apply nth_error_None in NE. lia.
Qed.

(** ** Nothing lost, repeated or reordered *)
Lemma readable_map : forall msgs, List.filter readable (map packet_of msgs) =
  map packet_of (List.filter (fun k => negb (is_error (km_id k)) && negb (identifier (km_id k) =? 0)) msgs).
Proof.
  induction msgs as [|k msgs IH]; [reflexivity|]. cbn [map List.filter]. unfold readable at 1. cbn [packet_of pk_id].
  destruct (negb (is_error (km_id k)) && negb (identifier (km_id k) =? 0)); cbn [map]; now rewrite IH.
Qed.

Lemma delivered_shows : forall msgs fs, Forall2 delivered_frame msgs fs -> Forall2 shows (map packet_of msgs) fs.
Proof.
  intros msgs fs F. induction F as [|k f ks fs (A & _ & B & C) F IH]; [constructor|]. cbn [map]. constructor; [|exact IH].
  unfold shows. cbn [packet_of pk_id pk_len pk_bytes]. auto.
Qed.

Lemma stream : forall live m h c k, (length (m_required m) <= 255)%nat -> NoDup live -> life live m h c k ->
  forall i g s, 0 <= i -> cl_group c = Some g -> nth_error g (Z.to_nat i) = Some s ->
  exists taken, arrived k (getSocketDescriptor s) = taken ++ waiting k (getSocketDescriptor s) /\
    Forall2 shows (List.filter readable taken) (frames_read i h).
Proof.
  intros live m h c k LEN ND H. induction H as [|h c k fd p H IH O A|h c k o fuel r c' k' H IH LG E EF]; intros i g s I G NE.
  - discriminate.
  - destruct (IH i g s I G NE) as (t & T & F). exists t. split; [|exact F]. cbn [arrived waiting]. unfold update.
    destruct (Z.eqb_spec (getSocketDescriptor s) fd) as [<-|]; [|auto]. rewrite T. now rewrite app_assoc.
  - assert (HN : forall g, cl_group c = Some g -> NoDup (descriptors g)).
    { intros g0 G0. eapply history_nodup; eauto. eapply life_history; eauto. }
    assert (CO := history_ok _ _ _ _ LEN (life_history _ _ _ _ _ H)).
    destruct o.
    + destruct c as [p w]. cbn [perform legal cl_group cl_world] in *.
      destruct (startInterfaceGroup _ _ _ _ _ _ _) as [[[[r0 p'] w']|]|] eqn:S; try discriminate.
      injection E as <- <-. cbn [cl_group cl_world effect frames_read] in *. destruct (isSuccess r0) eqn:R0.
      * exists []. split; [symmetry; apply EF|constructor].
      * apply start_failed in S; auto. destruct S as [-> FW]. subst k'. eapply IH; eauto.
    + destruct c as [p w]. cbn [perform stopInterfaceGroup] in E. injection E as <- <-. discriminate.
    + destruct c as [p w]. cbn [perform legal cl_group cl_world] in *. destruct p as [g0|]; [|discriminate].
      destruct (reconfigureFilters _ _ _ _ _ _) as [[[r0 log]|]|]; try discriminate. injection E as <- <-.
      cbn [cl_group cl_world effect frames_read] in *. subst k'. eapply IH; eauto.
    + destruct c as [p w]. cbn [perform legal cl_group cl_world] in *. destruct p as [g0|]; [|discriminate].
      injection E as E. apply bind_ret_inv in E. destruct E as ([[[g' r0] ct] sent] & W & E).
      injection E as <- <-. cbn [cl_group cl_world effect frames_read] in *. injection G as <-. subst k'.
      apply group_write_fds in W. destruct (nth_same _ _ _ _ W NE) as (s0 & N0 & F0). rewrite F0 in *. eapply IH; eauto.
    + destruct (perform_read _ _ _ _ _ _ _ _ _ _ E) as (g0 & g' & w & r0 & ct & fr & -> & -> & -> & W & FD).
      cbn [cl_group cl_world effect frames_read legal] in *. injection G as <-.
      destruct (nth_same _ _ _ _ FD NE) as (s0 & N0 & F0). rewrite F0 in *. clear F0.
      destruct LG as (_ & BJ & F & RO). destruct (IH i g0 s0 I eq_refl N0) as (t & T & FS).
      destruct (Z.eqb_spec index i) as [->|NI].
      * rewrite N0 in EF. destruct EF as (rest & RV & ->). cbn [arrived waiting]. rewrite update_same.
        destruct (group_read_at _ _ _ _ _ _ _ _ _ _ _ I W N0) as (rd & RD & -> & -> & ->). rewrite Nat2Z.id.
        destruct RV as [(P & Q & _)|(P & -> & _)].
        -- assert (TS : iface_typed s0). { destruct CO as [_ X]. rewrite Forall_forall in X. apply X. eapply nth_error_In; eauto. }
           destruct (read_positive res errno msgs s0 out TS F RO P) as (rd' & RD' & _ & _ & _ & _ & D & _).
           assert (rd' = rd) by congruence. subst rd'.
           exists (t ++ map packet_of msgs). split; [rewrite T, Q; now rewrite app_assoc|].
           rewrite filter_app. apply Forall2_app; [exact FS|]. rewrite readable_map. now apply delivered_shows.
        -- destruct (read_negative res errno msgs s0 out P) as (rd' & RD' & C0 & _).
           assert (rd' = rd) by congruence. subst rd'. rewrite C0. cbn [firstn]. rewrite app_nil_r. eauto.
      * rewrite app_nil_r. destruct (nth_error g0 (Z.to_nat index)) as [sj|] eqn:NJ; [|subst k'; eauto].
        destruct EF as (rest & _ & ->). cbn [arrived waiting]. rewrite update_other; [eauto|].
        apply (nth_distinct g0 _ _ s0 sj (HN g0 eq_refl) N0 NJ). lia.
Qed.

Lemma nothing_read : forall live m h c k res errno msgs i out r count frames g s,
  (length (m_required m) <= 255)%nat -> NoDup live ->
  life live m h c k -> cl_group c = Some g -> nth_error g (Z.to_nat i) = Some s ->
  legal live (Read res errno msgs i out) c -> forall fuel c' k',
  perform fuel m (Read res errno msgs i out) c = Some (Ret (WasRead r count frames, c')) ->
  effect (Read res errno msgs i out) (WasRead r count frames) c k k' -> r = SuccessNothing ->
  Forall2 shows (List.filter readable (arrived k' (getSocketDescriptor s))) (frames_read i h).
Proof.
  intros live m h c k res errno msgs i out r count frames g s LEN ND L G NE LG fuel c' k' E EF RN.
  assert (CO := history_ok _ _ _ _ LEN (life_history _ _ _ _ _ L)).
  pose proof LG as (_ & (I & _) & F & RO).
  destruct (stream _ _ _ _ _ LEN ND L i g s I G NE) as (t & T & FS).
  destruct (perform_read _ _ _ _ _ _ _ _ _ _ E) as (g0 & g' & w & r0 & ct & fr & -> & -> & ER & W & FD).
  injection ER as <- <- <-. cbn [cl_group] in G. assert (g0 = g) as -> by congruence.
  cbn [effect cl_group] in EF. rewrite NE in EF. destruct EF as (rest & RV & ->). cbn [arrived].
  destruct (group_read_at _ _ _ _ _ _ _ _ _ _ _ I W NE) as (rd & RD & R & _).
  destruct RV as [(P & _)|(P & _ & Q)].
  - exfalso. assert (TS : iface_typed s). { destruct CO as [_ X]. rewrite Forall_forall in X. apply X. eapply nth_error_In; eauto. }
    destruct (read_positive res errno msgs s out TS F RO P) as (rd' & RD' & RS & _).
    assert (rd' = rd) by congruence. subst rd'. rewrite RS in R. rewrite R in RN. discriminate.
  - destruct (read_negative res errno msgs s out P) as (rd' & RD' & _ & _ & _ & X & _).
    assert (rd' = rd) by congruence. subst rd'. destruct X as [X _]. destruct (X (eq_trans (eq_sym R) RN)) as [A B].
    rewrite (Q A B), app_nil_r in T. now rewrite T.
Qed.

(** ** What is read after the filters were configured *)
Lemma goes_on_life : forall live m h0 c0 k0 h c k, life live m h0 c0 k0 -> goes_on live m c0 k0 h c k -> life live m (h ++ h0) c k.
Proof.
  intros live m h0 c0 k0 h c k L G. induction G; [exact L|now apply life_arrival|].
  cbn [app]. eapply life_call; eauto.
Qed.

Lemma goes_on_in_force : forall live m h0 c0 k0 h c k, goes_on live m c0 k0 h c k -> in_force (h ++ h0) = in_force h0.
Proof.
  intros live m h0 c0 k0 h c k G. induction G as [|h c k fd p G IH O A|h c k o fuel r c' k' G IH LG E EF LF]; auto.
  cbn [app]. destruct o; cbn [leaves_filters in_force] in *; try contradiction; auto.
  destruct r; auto. rewrite LF. exact IH.
Qed.

(** The message passed the filters [fs]. *)
Definition passed (fs : list filter) (p : packet) : Prop :=
  is_error (pk_id p) = true \/ kernel_passes (map kconv fs) (pk_id p) = true.

Definition word32 (p : packet) : Prop := 0 <= pk_id p < 2 ^ 32.

Lemma goes_on_stream : forall live m h0 c0 k0 fs, (length (m_required m) <= 255)%nat -> NoDup live -> life live m h0 c0 k0 ->
  in_force h0 = Some fs -> Z.of_nat (length fs) < 2 ^ 29 ->
  forall h c k, goes_on live m c0 k0 h c k ->
  forall i g s, 0 <= i -> cl_group c = Some g -> nth_error g (Z.to_nat i) = Some s ->
  exists taken later, taken ++ waiting k (getSocketDescriptor s) = waiting k0 (getSocketDescriptor s) ++ later /\
    Forall2 shows (List.filter readable taken) (frames_read i h) /\ Forall (passed fs) later /\ Forall word32 taken.
Proof.
  intros live m h0 c0 k0 fs LEN ND L0 IF0 B h c k H.
  induction H as [|h c k fd p H IH O A|h c k o fuel r c' k' H IH LG E EF LF]; intros i g s I G NE.
  - exists [], []. cbn [app List.filter frames_read]. rewrite app_nil_r. split; [reflexivity|]. split; [constructor|split; constructor].
  - destruct (IH i g s I G NE) as (t & l & T & F & P & W). cbn [waiting]. unfold update.
    destruct (Z.eqb_spec (getSocketDescriptor s) fd) as [<-|]; [|exists t, l; auto].
    exists t, (l ++ [p]). split; [rewrite !app_assoc, T; reflexivity|]. split; [exact F|]. split; [|exact W].
    apply Forall_app. split; [exact P|]. constructor; [|constructor].
    pose proof (life_history _ _ _ _ _ (goes_on_life _ _ _ _ _ _ _ _ L0 H)) as HH.
    pose proof (goes_on_in_force live m h0 _ _ _ _ _ H) as IF. rewrite IF0 in IF.
    destruct A as [A|(kfs & A1 & A2)]; [left; exact A|right].
    rewrite (history_filters live m _ c fs g s LEN ND HH IF B G (nth_error_In _ _ NE)) in A1.
    assert (kfs = map kconv fs) as -> by congruence. exact A2.
  - pose proof (life_history _ _ _ _ _ (goes_on_life _ _ _ _ _ _ _ _ L0 H)) as HH.
    assert (HN : forall g, cl_group c = Some g -> NoDup (descriptors g)).
    { intros g0 G0. eapply history_nodup; eauto. }
    assert (CO := history_ok _ _ _ _ LEN HH).
    destruct o; cbn [leaves_filters] in LF; try contradiction.
    + destruct c as [p w]. cbn [perform legal cl_group cl_world] in *.
      destruct (startInterfaceGroup _ _ _ _ _ _ _) as [[[[r0 p'] w']|]|] eqn:S; try discriminate.
      injection E as <- <-. cbn [cl_group cl_world effect frames_read] in *. rewrite LF in EF. rewrite LF.
      apply start_failed in S; auto. destruct S as [-> FW]. subst k'. eapply IH; eauto.
    + destruct c as [p w]. cbn [perform legal cl_group cl_world] in *. destruct p as [g0|]; [|discriminate].
      injection E as E. apply bind_ret_inv in E. destruct E as ([[[g' r0] ct] sent] & W & E).
      injection E as <- <-. cbn [cl_group cl_world effect frames_read] in *. injection G as <-. subst k'.
      apply group_write_fds in W. destruct (nth_same _ _ _ _ W NE) as (s0 & N0 & F0). rewrite F0 in *. eapply IH; eauto.
    + destruct (perform_read _ _ _ _ _ _ _ _ _ _ E) as (g0 & g' & w & r0 & ct & fr & -> & -> & -> & W & FD).
      cbn [cl_group cl_world effect frames_read legal] in *. injection G as <-.
      destruct (nth_same _ _ _ _ FD NE) as (s0 & N0 & F0). rewrite F0 in *. clear F0.
      destruct LG as (_ & BJ & F & RO). destruct (IH i g0 s0 I eq_refl N0) as (t & l & T & FS & PL & WT).
      destruct (Z.eqb_spec index i) as [->|NI].
      * rewrite N0 in EF. destruct EF as (rest & RV & ->). cbn [arrived waiting]. rewrite update_same.
        destruct (group_read_at _ _ _ _ _ _ _ _ _ _ _ I W N0) as (rd & RD & -> & -> & ->). rewrite Nat2Z.id.
        destruct RV as [(P & Q & _)|(P & -> & _)].
        -- assert (TS : iface_typed s0). { destruct CO as [_ X]. rewrite Forall_forall in X. apply X. eapply nth_error_In; eauto. }
           destruct (read_positive res errno msgs s0 out TS F RO P) as (rd' & RD' & _ & _ & _ & _ & D & _).
           assert (rd' = rd) by congruence. subst rd'.
           exists (t ++ map packet_of msgs), l. split; [rewrite <- T, Q; now rewrite app_assoc|].
           split; [rewrite filter_app; apply Forall2_app; [exact FS|]; rewrite readable_map; now apply delivered_shows|].
           split; [exact PL|]. apply Forall_app. split; [exact WT|]. apply Forall_forall. intros q QI. apply in_map_iff in QI.
           destruct QI as (km & <- & KI). destruct RO as (_ & TM & _). rewrite Forall_forall in TM. destruct (TM km KI) as [R _].
           exact R.
        -- destruct (read_negative res errno msgs s0 out P) as (rd' & RD' & C0 & _).
           assert (rd' = rd) by congruence. subst rd'. rewrite C0. cbn [firstn]. rewrite app_nil_r. eauto 6.
      * rewrite app_nil_r. destruct (nth_error g0 (Z.to_nat index)) as [sj|] eqn:NJ; [|subst k'; eauto 6].
        destruct EF as (rest & _ & ->). cbn [arrived waiting]. rewrite update_other; [eauto 6|].
        apply (nth_distinct g0 _ _ s0 sj (HN g0 eq_refl) N0 NJ). lia.
Qed.

Lemma app_prefix : forall (A : Type) (t w q l : list A), t ++ w = q ++ l ->
  (exists x, q = t ++ x) \/ (exists y z, t = q ++ y /\ l = y ++ z).
Proof.
  intros A t. induction t as [|a t IH]; intros w q l E.
  - left. now exists q.
  - destruct q as [|b q].
    + right. exists (a :: t), w. split; [reflexivity|]. cbn in E. now rewrite <- E.
    + cbn in E. injection E as -> E. destruct (IH _ _ _ E) as [(x & ->)|(y & z & -> & ->)].
      * left. now exists x.
      * right. now exists y, z.
Qed.

Lemma shows_length : forall ps fs, Forall2 shows ps fs -> length ps = length fs.
Proof. intros ps fs F. induction F; [reflexivity|cbn; now rewrite IHF]. Qed.

Lemma late_frames : forall live m h0 c0 k0 fs h c k i g s, (length (m_required m) <= 255)%nat -> NoDup live -> life live m h0 c0 k0 ->
  in_force h0 = Some fs -> Forall id_mask fs -> Z.of_nat (length fs) < 2 ^ 29 -> goes_on live m c0 k0 h c k ->
  0 <= i -> cl_group c = Some g -> nth_error g (Z.to_nat i) = Some s ->
  exists taken later, taken ++ waiting k (getSocketDescriptor s) = waiting k0 (getSocketDescriptor s) ++ later /\
    Forall2 shows (List.filter readable taken) (frames_read i h) /\
    Forall (fun f => is_extended (fid f) = true /\ Exists (selected (fid f)) fs)
      (skipn (length (List.filter readable (waiting k0 (getSocketDescriptor s)))) (frames_read i h)).
Proof.
  intros live m h0 c0 k0 fs h c k i g s LEN ND L0 IF0 IM B H I G NE.
  destruct (goes_on_stream live m h0 c0 k0 fs LEN ND L0 IF0 B h c k H i g s I G NE) as (t & l & T & F & P & W).
  exists t, l. split; [exact T|]. split; [exact F|]. set (q := waiting k0 (getSocketDescriptor s)) in *.
  destruct (app_prefix _ _ _ _ _ T) as [(x & Q)|(y & z & -> & ->)].
  - rewrite skipn_all2; [constructor|]. rewrite <- (shows_length _ _ F), Q, filter_app, app_length. lia.
  - rewrite filter_app in F. apply Forall2_app_inv_l in F. destruct F as (f1 & f2 & F1 & F2 & ->).
    rewrite (shows_length _ _ F1), skipn_app, skipn_all, Nat.sub_diag. cbn [skipn app].
    apply Forall_app in W. destruct W as [_ W]. apply Forall_app in P. destruct P as [P _].
    clear -F2 W P IM. revert f2 F2. induction y as [|p y IH]; intros f2 F2; cbn [List.filter] in F2.
    + inversion F2. constructor.
    + inversion W as [|? ? W1 W2]; subst. inversion P as [|? ? P1 P2]; subst.
      destruct (readable p) eqn:R; [|auto]. inversion F2 as [|? f ? f2' S1 F2']; subst. constructor; [|auto].
      destruct S1 as (-> & _). unfold readable in R. apply andb_true_iff in R. destruct R as [R _]. apply negb_true_iff in R.
      destruct P1 as [P1|P1]; [congruence|]. apply kconv_passes in P1; auto. split; [exact W1|exact R].
Qed.
