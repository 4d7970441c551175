(** Proofs about programs that exchange frames over one bus. *)
From Coq Require Import ZArith Bool String List Lia.
From Verif Require Import Outcome ResultModel CanFrameModel CanFrameSpec CanFrameProofs SocketCanModel SocketCanSpec SocketCanProofs SocketCanHist GroupModel GroupSpec GroupProofs
  ManagerModel ManagerSpec ManagerProofs MainProofs ClientModel ClientSpec ClientProofs WireSpec WireProofs TrafficSpec TrafficProofs NetworkSpec.
Import ListNotations.
Open Scope Z_scope.

(** A frame and what it becomes in the transmit buffer. *)
Definition as_sent (f : frame) (m : canfd) : Prop :=
  frame_typed 64 f /\ fdlc f < 256 /\ exists c, canfd_typed c /\ m = filled f c.

Lemma forall2_of_nth : forall A B (R : A -> B -> Prop) la lb, length la = length lb ->
  (forall i a b, nth_error la i = Some a -> nth_error lb i = Some b -> R a b) -> Forall2 R la lb.
Proof.
  intros A B R. induction la as [|a la IH]; intros [|b lb] L H; try discriminate; constructor.
  - apply (H 0%nat); reflexivity.
  - apply IH; [now injection L|]. intros i x y X Y. apply (H (S i)); auto.
Qed.

Lemma nth_error_firstn : forall A (l : list A) n i x, nth_error (firstn n l) i = Some x -> (i < n)%nat /\ nth_error l i = Some x.
Proof.
  intros A. induction l as [|a l IH]; intros [|n] [|i] x H; try discriminate.
  - split; [lia|exact H].
  - cbn [firstn nth_error] in H. destruct (IH n i x H). split; [lia|auto].
Qed.

Lemma write_as_sent : forall k s fs n w, iface_typed s -> frames_typed fs -> send_ok k -> (n <= 4)%nat -> write k s fs n = Ret w ->
  Forall2 as_sent (firstn (Z.to_nat (wr_count w)) fs)
    (match wr_sent w with Some sent => firstn (Z.to_nat (fst (k sent))) sent | None => [] end).
Proof.
  intros k s fs n w TS TF SO N W. destruct (Nat.eq_dec n 0) as [->|N0].
  - rewrite write_zero in W. injection W as <-. constructor.
  - destruct (write_result k s fs n TS TF SO ltac:(lia)) as (w' & sent & W' & S & L & Q). cbv zeta in Q.
    destruct Q as (_ & _ & _ & _ & C). assert (w' = w) by congruence. subst w'. rewrite S, C.
    assert (B := SO sent). rewrite L in B. assert (E := sent_is k s fs n w sent TS TF ltac:(lia) W S).
    pose proof TF as [LF FF].
    replace (Z.to_nat (Z.max 0 (fst (k sent)))) with (Z.to_nat (fst (k sent))) by lia.
    apply forall2_of_nth.
    + rewrite !firstn_length. lia.
    + intros i f m HF HM. apply nth_error_firstn in HF. apply nth_error_firstn in HM. destruct HF as [I HF], HM as [_ HM].
      destruct (write_sent s fs n i f TS TF ltac:(lia) ltac:(lia) HF) as (c & HC & HS). rewrite <- E in HS.
      assert (m = filled f c) by congruence.
      rewrite Forall_forall in FF. destruct (FF f (nth_error_In _ _ HF)) as [F1 F2].
      split; [auto|]. split; [auto|]. exists c. split; [|auto]. destruct TS as (_ & TB & _). rewrite Forall_forall in TB.
      apply TB. eapply nth_error_In; eauto.
Qed.

Lemma program_as_sent : forall w, program w -> 0 <= snd w -> Forall2 as_sent (written (snd w) (fst w)) (taken (snd w) (fst w)).
Proof.
  intros [h i] (live & m & c & LEN & H & SO) I. cbn [fst snd] in *.
  induction H as [|h c o fuel r c' H IH LG E]; [constructor|].
  inversion SO as [|? ? S1 S2]; subst. specialize (IH S2). cbn [fst] in S1.
  assert (CO := history_ok _ _ _ _ LEN H). destruct c as [p w]. destruct o; cbn [perform legal cl_group cl_world] in *.
  - destruct (startInterfaceGroup _ _ _ _ _ _ _) as [[[[r0 p'] w']|]|]; try discriminate.
    injection E as <- <-. cbn [written taken]. destruct (isSuccess r0); [constructor|exact IH].
  - cbn [stopInterfaceGroup] in E. injection E as <- <-. constructor.
  - destruct p as [g0|]; [|discriminate].
    destruct (reconfigureFilters _ _ _ _ _ _) as [[[r0 log]|]|]; try discriminate. injection E as <- <-. exact IH.
  - destruct p as [g0|]; [|discriminate]. destruct LG as (_ & J & F & N). injection E as E. apply bind_ret_inv in E.
    destruct E as ([[[g' r0] ct] sent] & W & E). injection E as <- <-. cbn [written taken].
    assert (X : Forall2 as_sent (firstn (Z.to_nat ct) frames)
                  (match sent with Some sent => firstn (Z.to_nat (fst (sendmmsg sent))) sent | None => [] end)).
    { unfold group_write in W. destruct (Z.leb_spec (Z.of_nat (length g0)) index).
      - assert (ct = 0) as -> by congruence. assert (sent = None) as -> by congruence. constructor.
      - destruct (nth_error g0 (Z.to_nat index)) as [s|] eqn:NE; [|discriminate]. apply bind_ret_inv in W.
        destruct W as (wo & WO & W). assert (ct = wr_count wo) as -> by congruence. assert (sent = wr_sent wo) as -> by congruence.
        destruct CO as [_ T]. rewrite Forall_forall in T. eapply write_as_sent; eauto. apply T. eapply nth_error_In; eauto. }
    destruct (index =? i).
    + destruct sent as [sent|]; [now apply Forall2_app|].
      destruct (firstn (Z.to_nat ct) frames) as [|f l]; [now rewrite app_nil_r|inversion X].
    + rewrite app_nil_r. destruct sent as [sent|]; [rewrite app_nil_r|]; exact IH.
  - destruct p as [g0|]; [|discriminate]. injection E as E. apply bind_ret_inv in E.
    destruct E as ([[[g' r0] ct] fr] & W & E). injection E as <- <-. exact IH.
Qed.

Lemma interleaving_related : forall A B (R : A -> B -> Prop) lbs lb, interleaving lbs lb ->
  forall las, Forall2 (Forall2 R) las lbs -> exists la, interleaving las la /\ Forall2 R la lb.
Proof.
  intros A B R lbs lb I. induction I as [ls E|pre y l post rest I IH]; intros las F.
  - exists []. split; [|constructor]. constructor. induction F as [|a b las ls FA F IH]; [constructor|].
    inversion E as [|? ? E1 E2]; subst. constructor; [now inversion FA|auto].
  - apply Forall2_app_inv_r in F. destruct F as (p' & q' & FP & FQ & ->). inversion FQ as [|a ? q'' ? FA FQ']; subst.
    inversion FA as [|x ? l' ? RX FL]; subst.
    destruct (IH (p' ++ l' :: q'')) as (la & IL & FR).
    { apply Forall2_app; [auto|]. constructor; auto. }
    exists (x :: la). split; [now apply il_next|now constructor].
Qed.

Lemma interleaving_forall : forall A (P : A -> Prop) ls l, interleaving ls l -> Forall (Forall P) ls -> Forall P l.
Proof.
  intros A P ls l I. induction I as [ls E|pre y l post rest I IH]; intros F; [constructor|].
  apply Forall_app in F. destruct F as [FP FQ]. inversion FQ as [|? ? F1 F2]; subst. inversion F1; subst.
  constructor; [auto|]. apply IH. apply Forall_app. split; [auto|]. constructor; auto.
Qed.

Lemma forall2_filter : forall A B (R : A -> B -> Prop) f g la lb, Forall2 R la lb ->
  (forall a b, R a b -> f a = g b) -> Forall2 R (List.filter f la) (List.filter g lb).
Proof.
  intros A B R f g la lb F H. induction F as [|a b la lb RA F IH]; [constructor|]. cbn [List.filter]. rewrite (H a b RA).
  destruct (g b); [now constructor|exact IH].
Qed.

Lemma forall2_firstn : forall A B (R : A -> B -> Prop) n la lb, Forall2 R la lb -> Forall2 R (firstn n la) (firstn n lb).
Proof.
  intros A B R n la lb F. revert n. induction F as [|a b la lb RA F IH]; intros [|n]; cbn [firstn]; constructor; auto.
Qed.

Lemma forall2_trans : forall A B C (R : A -> B -> Prop) (S : B -> C -> Prop) (T : A -> C -> Prop) la lb lc,
  (forall a b c, R a b -> S b c -> T a c) -> Forall2 R la lb -> Forall2 S lb lc -> Forall2 T la lc.
Proof.
  intros A B C R S T la lb lc H F. revert lc. induction F as [|a b la lb RA F IH]; intros lc G; inversion G; subst; constructor; eauto.
Qed.

Lemma selected_same : forall w w' f, identifier w = identifier w' -> selected w f -> selected w' f.
Proof. intros w w' f E S k K M. rewrite <- (S k K M). symmetry. now apply identifier_bits. Qed.

(** Every frame read is a valid object. *)
Lemma frames_read_typed : forall live m h c, (length (m_required m) <= 255)%nat -> history live m h c ->
  forall i, Forall (frame_typed 64) (frames_read i h).
Proof.
  intros live m h c LEN H i. induction H as [|h c o fuel r c' H IH LG E]; [constructor|].
  assert (CO := history_ok _ _ _ _ LEN H). destruct c as [p w]. destruct o; cbn [perform legal cl_group cl_world] in *.
  - destruct (startInterfaceGroup _ _ _ _ _ _ _) as [[[[r0 p'] w']|]|]; try discriminate.
    injection E as <- <-. cbn [frames_read]. destruct (isSuccess r0); [constructor|exact IH].
  - cbn [stopInterfaceGroup] in E. injection E as <- <-. constructor.
  - destruct p as [g0|]; [|discriminate].
    destruct (reconfigureFilters _ _ _ _ _ _) as [[[r0 log]|]|]; try discriminate. injection E as <- <-. exact IH.
  - destruct p as [g0|]; [|discriminate]. injection E as E. apply bind_ret_inv in E.
    destruct E as ([[[g' r0] ct] fr] & W & E). injection E as <- <-. exact IH.
  - destruct p as [g0|]; [|discriminate]. destruct LG as (_ & J & F & RO). injection E as E. apply bind_ret_inv in E.
    destruct E as ([[[g' r0] ct] fr] & W & E). injection E as <- <-. cbn [frames_read]. apply Forall_app. split; [exact IH|].
    destruct (index =? i); [|constructor].
    unfold group_read in W. destruct (Z.leb_spec (Z.of_nat (length g0)) index).
    + assert (ct = 0) as -> by congruence. constructor.
    + destruct (nth_error g0 (Z.to_nat index)) as [s|] eqn:NE; [|discriminate]. apply bind_ret_inv in W.
      destruct W as (rd & RD & W). assert (fr = rd_frames rd) as -> by congruence.
      destruct CO as [_ T]. rewrite Forall_forall in T.
      destruct (read_typed res errno msgs s out (T s (nth_error_In _ _ NE)) F RO) as (rd' & RD' & _ & [_ TR]).
      assert (rd' = rd) by congruence. subst rd'.
      assert (Forall (frame_typed 64) (rd_frames rd)) by (eapply Forall_impl; [|exact TR]; intros a A; apply A).
      rewrite <- (firstn_skipn (Z.to_nat ct) (rd_frames rd)) in H1. now apply Forall_app in H1.
Qed.

(** A frame and the message in which it arrives. *)
Definition as_carried (f : frame) (x : kmsg) : Prop := exists m, as_sent f m /\ carried m x.

Lemma as_carried_id : forall f x, as_carried f x ->
  is_extended (km_id x) = true /\ not_error (km_id x) /\ identifier (km_id x) = identifier (fid f).
Proof.
  intros f x (m & (F & D & c & C & ->) & (d & _ & _ & _ & KI & _)). rewrite KI.
  destruct (filled_wire f c F D) as (A & B & _ & E & _). split; [auto|]. split; [|auto]. split; [|auto].
  destruct (filled_typed f c F C) as [R _]. exact R.
Qed.

Lemma passes_selected : forall fs f x (sel : frame -> bool), Forall id_mask fs -> (forall f, sel f = true <-> Exists (selected (fid f)) fs) ->
  as_carried f x -> sel f = kernel_passes (map kconv fs) (km_id x).
Proof.
  intros fs f x sel IM SEL A. destruct (as_carried_id f x A) as (EX & ER & ID). apply eq_true_iff_eq.
  rewrite SEL, (kconv_passes fs IM) by exact ER. split.
  - intros X. split; [exact EX|]. eapply Exists_impl; [|exact X]. intros a. apply selected_same. now symmetry.
  - intros [_ X]. eapply Exists_impl; [|exact X]. intros a. now apply selected_same.
Qed.

Lemma network : forall ws traffic ks live m h c k j g s fs sel,
  Forall program ws -> Forall (fun w => 0 <= snd w) ws ->
  Forall (fun w => Forall (fun f => identifier (fid f) <> 0 /\ fdlc f <= 15) (written (snd w) (fst w))) ws ->
  interleaving (map (fun w => taken (snd w) (fst w)) ws) traffic -> Forall2 carried traffic ks ->
  (length (m_required m) <= 255)%nat -> NoDup live -> life live m h c k ->
  0 <= j -> cl_group c = Some g -> nth_error g (Z.to_nat j) = Some s ->
  in_force h = Some fs -> Forall id_mask fs -> Z.of_nat (length fs) < 2 ^ 29 ->
  (forall kfs, filters_of (getSocketDescriptor s) (w_filters (cl_world c)) = Some kfs ->
     arrived k (getSocketDescriptor s) = map packet_of (List.filter (fun x => kernel_passes kfs (km_id x)) ks)) ->
  (forall f, sel f = true <-> Exists (selected (fid f)) fs) ->
  exists all, interleaving (map (fun w => written (snd w) (fst w)) ws) all /\
    let sent := List.filter sel all in
    Forall2 (fun f g => identifier (fid g) = identifier (fid f) /\ (frame_eq 0 g f = Ret true <-> fits_the_bus f))
      (firstn (length (frames_read j h)) sent) (frames_read j h) /\
    (waiting k (getSocketDescriptor s) = [] -> length (frames_read j h) = length sent).
Proof.
  intros ws traffic ks live m h c k j g s fs sel PR NN OK IL CA LEN ND L J G NE IF IM B AR SEL.
  assert (H := life_history _ _ _ _ _ L).
  destruct (interleaving_related _ _ as_sent _ _ IL (map (fun w => written (snd w) (fst w)) ws)) as (all & IA & AS).
  { clear - PR NN. induction ws as [|w ws IH]; [constructor|]. inversion PR; subst. inversion NN; subst. cbn [map].
    constructor; [now apply program_as_sent|auto]. }
  exists all. split; [exact IA|]. cbv zeta.
  assert (AK : Forall (fun f => identifier (fid f) <> 0 /\ fdlc f <= 15) all).
  { eapply interleaving_forall; [exact IA|]. clear - OK. induction OK; cbn [map]; constructor; auto. }
  assert (AC : Forall2 (fun f x => as_carried f x /\ identifier (fid f) <> 0 /\ fdlc f <= 15) all ks).
  { clear - AS CA AK. revert ks CA AK. induction AS as [|f mm all traffic S AS IH]; intros ks CA AK; inversion CA; subst; [constructor|].
    inversion AK; subst. constructor; [|auto]. split; [exists mm; auto|auto]. }
  set (kfs := map kconv fs). set (P := fun x => kernel_passes kfs (km_id x)).
  assert (FL : filters_of (getSocketDescriptor s) (w_filters (cl_world c)) = Some kfs).
  { eapply history_filters; eauto. eapply nth_error_In; eauto. }
  specialize (AR kfs FL). fold P in AR.
  assert (FC : Forall2 (fun f x => as_carried f x /\ identifier (fid f) <> 0 /\ fdlc f <= 15) (List.filter sel all) (List.filter P ks)).
  { apply forall2_filter; [exact AC|]. intros f x [A _]. unfold P. now apply passes_selected. }
  set (sent := List.filter sel all) in *. set (got := List.filter P ks) in *.
  destruct (stream _ _ _ _ _ LEN ND L j g s J G NE) as (tk & T & SH).
  assert (RD : List.filter readable tk = tk).
  { apply filter_all. assert (X : Forall (fun p => readable p = true) (arrived k (getSocketDescriptor s))).
    { rewrite AR. clear - FC. clearbody got sent. induction FC as [|f x sent got (A & I & _) FC IH]; [constructor|]. cbn [map].
      constructor; [|exact IH]. destruct (as_carried_id f x A) as (_ & (_ & ER) & ID). unfold readable. cbn [packet_of pk_id].
      rewrite ER, ID. apply Z.eqb_neq in I. now rewrite I. }
    rewrite T in X. now apply Forall_app in X. }
  rewrite RD in SH. set (reads := frames_read j h) in *.
  assert (TL : length tk = length reads) by (eapply forall2_len; eauto).
  assert (TK : tk = map packet_of (firstn (length reads) got)).
  { rewrite <- firstn_map, <- AR, T, <- TL. rewrite firstn_app, firstn_all, Nat.sub_diag. cbn [firstn]. now rewrite app_nil_r. }
  split.
  - assert (TY : Forall (frame_typed 64) reads) by (eapply frames_read_typed; eauto).
    assert (F1 := forall2_firstn _ _ _ (length reads) _ _ FC). rewrite TK in SH.
    clear - F1 SH TY. set (n := length reads) in *. clearbody n. clearbody reads.
    revert F1 SH. generalize (firstn n sent) (firstn n got). intros l1 l2 F1. revert reads TY.
    induction F1 as [|f x l1 l2 ((mm & (F & D & c & C & ->) & CR) & I & D15) F1 IH]; intros reads TY SH; inversion SH as [|? gf ? reads' S1 S2]; subst; [constructor|].
    inversion TY as [|? ? T1 T2]; subst. constructor; [|apply IH; auto].
    destruct S1 as (A1 & A2 & A3). cbn [packet_of pk_id pk_len pk_bytes] in *.
    split.
    + rewrite A1. apply as_carried_id. exists (filled f c). split; [|exact CR]. split; [auto|]. split; [auto|]. eauto.
    + assert (WF : forall f, frame_typed 64 f -> frame_wf 64 f).
      { intros a Ta. split; [auto|]. destruct Ta as [_ [D0 _]]. pose proof (dlcToLength_bound (fdlc a) D0).
        unfold getDataLength. lia. }
      assert (W1 := WF gf T1). assert (W2 := WF f F).
      rewrite (frame_eq_true 64) by auto. unfold fits_the_bus. eapply bus_frame; eauto.
  - intros WN. rewrite WN, app_nil_r in T. rewrite <- TL, <- T, AR, map_length. symmetry. eapply forall2_len; eauto.
Qed.
