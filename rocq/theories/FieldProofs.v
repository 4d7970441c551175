(** Proofs for Props_Field.v. *)
From Coq Require Import ZArith Bool String List Lia.
From Verif Require Import Outcome ResultModel CanFrameModel CanFrameSpec CanFrameProofs SocketCanModel SocketCanSpec SocketCanProofs SocketCanHist
  BitCopyModel BitCopySpec BitCopyProofs BitCopyFacts WireSpec WireProofs FieldSpec.
Import ListNotations.
Open Scope Z_scope.

(** What one crossing does to the bytes. *)
Lemma crossed_bytes : forall f g, crosses f g ->
  exists m : kmsg, exists c : canfd, carried (filled f c) m /\ g = exact_frame m /\ kmsg_typed m /\
    Forall (fun b => 0 <= b < 256) (km_bytes m) /\ frame_typed 64 f /\ fdlc f <= 15.
Proof.
  intros f g (k & s & fs & n & i & w & sent & ks & errno & s2 & out & r & TS & TF & Hn & NZ & Hi & Hf & HW & HS & CA & TK & OK & TS2 & TO & HR & HG).
  pose proof (sent_is k s fs n w sent TS TF Hn HW HS) as E.
  pose proof TS as [LB [TB _]]. pose proof TF as [LF FF].
  assert (LS : length sent = n) by (subst sent; apply sent_length; auto; lia).
  assert (LK : length ks = n) by (rewrite <- LS; symmetry; exact (forall2_len _ _ _ _ _ CA)).
  assert (RO : recv_ok (Z.of_nat n) ks) by (split; [lia|]; split; auto; intros _; lia).
  assert (WH : Forall whole ks).
  { clear -CA. induction CA; constructor; auto. right. destruct H as [d H]. tauto. }
  destruct (read_whole (Z.of_nat n) errno ks s2 out TS2 TO RO ltac:(lia) WH) as [r' [HR' ER]].
  assert (r' = r) as -> by congruence.
  assert (AC : List.filter (fun m => negb (is_error (km_id m)) && negb (identifier (km_id m) =? 0)) ks = ks).
  { apply filter_all. rewrite E in CA. apply (carried_accept fs (if_buf s) ks n); auto; try lia. intros j x Hj Hx. apply (NZ j x Hj Hx). }
  rewrite AC in ER.
  destruct (write_sent s fs n i f TS TF Hn Hi Hf) as [c [EB ES]]. rewrite <- E in ES.
  destruct (nth_error ks i) as [m|] eqn:EM; [|apply nth_error_None in EM; lia].
  exists m, c. split; [exact (forall2_nth _ _ _ _ _ _ _ _ CA ES EM)|].
  assert (GE : nth_error (firstn (rd_count r) (rd_frames r)) i = Some (exact_frame m)).
  { rewrite ER, nth_error_map, EM. reflexivity. }
  assert (GG : nth_error (rd_frames r) i = Some (exact_frame m)).
  { rewrite <- (firstn_skipn (rd_count r) (rd_frames r)). rewrite nth_error_app1; auto.
    apply nth_error_Some. rewrite GE. discriminate. }
  split; [congruence|].
  assert (IM : In m ks) by (eapply nth_error_In; eauto).
  eapply Forall_forall in TK; [|exact IM]. eapply Forall_forall in OK; [|exact IM]. split; auto. split; auto.
  eapply Forall_forall in FF; [|eapply nth_error_In; exact Hf]. split; [tauto|]. apply (NZ i f Hi Hf).
Qed.

Lemma nth_octets : forall l i, Forall (fun b => 0 <= b < 256) l -> 0 <= nth i l 0 < 256.
Proof. induction l as [|b l IH]; intros [|i] F; cbn [nth]; try lia; inversion F; subst; auto. Qed.

(** A byte before the length code is delivered if the code is at most 12. *)
Lemma crossed_byte : forall f g i, crosses f g -> fdlc f <= 12 -> Z.of_nat i < fdlc f -> nth i (fdata g) 0 = nth i (fdata f) 0.
Proof.
  intros f g i C L Hi. destruct (crossed_bytes f g C) as [m [c [CA [-> [TM [_ [TF L15]]]]]]].
  destruct CA as [d [V [LE [MIN [KI [KL [KB [KD KZ]]]]]]]]. pose proof TF as [LF [F0 _]].
  destruct (filled_wire f c TF ltac:(lia)) as [_ [_ [_ [_ [EL EP]]]]]. rewrite EL in *.
  pose proof (bus_length (fdlc f) d ltac:(lia) V LE MIN) as BL.
  assert (B : fdlc f <= dlcToLength (km_len m)).
  { rewrite KL, BL. destruct (Z.leb_spec (fdlc f) 8).
    - rewrite dlcToLength_iso by (unfold valid_code; lia). rewrite iso_small; lia.
    - destruct (Z.leb_spec (fdlc f) 12); [|lia]. change (dlcToLength 12) with 24. lia. }
  unfold exact_frame. cbn [fdata]. rewrite app_nth1 by (rewrite firstn_length; lia).
  rewrite nth_firstn_lt by lia. rewrite KD by lia.
  rewrite <- (nth_firstn_lt _ (cf_data (filled f c)) (Z.to_nat (getDataLength f)) i 0).
  2: { pose proof (code_le_length (fdlc f) ltac:(lia)). unfold getDataLength. lia. }
  rewrite EP. unfold payload. apply nth_firstn_lt.
  pose proof (code_le_length (fdlc f) ltac:(lia)). unfold getDataLength. lia.
Qed.

Lemma crossed_array : forall sw f g, 10 <= sw -> crosses f g -> byte_array sw (fdata g) /\ length (fdata g) = 64%nat.
Proof.
  intros sw f g W C. destruct (crossed_bytes f g C) as [m [c [CA [-> [TM [OC _]]]]]].
  destruct CA as [d [V [LE [MIN [KI [KL [KB _]]]]]]].
  assert (L : length (fdata (exact_frame m)) = 64%nat).
  { unfold exact_frame. cbn [fdata]. rewrite app_length, repeat_length, firstn_length.
    destruct TM as [_ [TL _]]. pose proof (dlcToLength_bound (km_len m) ltac:(lia)). lia. }
  split; auto. split.
  - intros i. apply nth_octets. unfold exact_frame. cbn [fdata]. apply Forall_app. split.
    + apply Forall_forall. intros x Hx. eapply Forall_forall in OC; [exact OC|]. rewrite <- (firstn_skipn (Z.to_nat (dlcToLength (km_len m)))).
      apply in_or_app. auto.
    + apply Forall_forall. intros x Hx. apply repeat_spec in Hx. lia.
  - rewrite L. assert (2 ^ 10 <= 2 ^ sw) by (apply Z.pow_le_mono_r; lia). lia.
Qed.

Lemma framed_bytes : forall sw value scratch o l id dlc ts f, 3 <= sw -> byte_array sw value -> byte_array sw scratch ->
  0 <= o < l -> l <= Z.of_nat (length value) -> l <= Z.of_nat (length scratch) -> 0 <= dlc ->
  field_framed sw value scratch o l id dlc ts f ->
  fdlc f = dlc /\ fid f = id /\
  forall i, Z.of_nat i < dlcToLength dlc -> nth i (fdata f) 0 = if (o <=? Z.of_nat i) && (Z.of_nat i <? l) then nth i value 0 else nth i scratch 0.
Proof.
  intros sw value scratch o l id dlc ts f W BV BS O LV LS D [packed [c [P M]]].
  destruct (a2u_aligned sw value scratch o l W BV BS O LV LS) as [d' [P' [_ B]]].
  assert (d' = packed) as -> by congruence.
  destruct (frame_make_bytes 64 id packed dlc ts f D M) as [EI [ED [_ [_ [EB _]]]]].
  split; auto. split; auto. intros i Hi. rewrite EB, B; auto.
Qed.

Lemma field_arrives : forall sw value scratch dst o l id dlc ts f g,
  10 <= sw -> byte_array sw value -> byte_array sw scratch -> byte_array sw dst -> 0 <= o < l ->
  l <= Z.of_nat (length value) -> l <= Z.of_nat (length scratch) -> l <= Z.of_nat (length dst) ->
  l <= dlc <= 12 -> field_framed sw value scratch o l id dlc ts f -> crosses f g ->
  exists dst', field_extracted sw g dst o l dst' /\ length dst' = length dst /\
    forall i, nth i dst' 0 = if (o <=? Z.of_nat i) && (Z.of_nat i <? l) then nth i value 0 else nth i dst 0.
Proof.
  intros sw value scratch dst o l id dlc ts f g W BV BS BD O LV LS LD D FR CR.
  destruct (framed_bytes sw value scratch o l id dlc ts f ltac:(lia) BV BS O LV LS ltac:(lia) FR) as [ED [_ EB]].
  destruct (crossed_array sw f g W CR) as [BG LG].
  destruct (u2a_aligned sw (fdata g) dst o l ltac:(lia) BG BD O ltac:(lia) LD) as [d' [U [UL UB]]].
  exists d'. split; [eexists; exact U|]. split; auto. intros i. rewrite UB.
  destruct ((o <=? Z.of_nat i) && (Z.of_nat i <? l)) eqn:R; auto.
  apply andb_true_iff in R. destruct R as [R1 R2]. apply Z.leb_le in R1. apply Z.ltb_lt in R2.
  rewrite (crossed_byte f g i CR) by lia. rewrite EB.
  - destruct (Z.leb_spec o (Z.of_nat i)); [|lia]. destruct (Z.ltb_spec (Z.of_nat i) l); [|lia]. reflexivity.
  - pose proof (code_le_length dlc ltac:(lia)). lia.
Qed.

Lemma iso_bound : forall c, 0 <= c <= 15 -> 0 <= iso_length c <= 64.
Proof. intros c H. rewrite <- dlcToLength_iso by exact H. apply dlcToLength_bound. lia. Qed.

(** ** A crossing with zero padding *)
Definition bus_code (dlc : Z) : Z := if dlc <=? 8 then dlc else if dlc <=? 12 then 9 else 10.
Definition on_the_bus (m : canfd) : kmsg :=
  KMsg (cf_id m) (iso_length (bus_code (cf_len m)))
    (firstn (Z.to_nat (cf_len m)) (cf_data m) ++ repeat 0 (64 - Z.to_nat (cf_len m))) [] 0.

Lemma on_the_bus_carried : forall m, canfd_typed m -> cf_len m <= 15 -> carried m (on_the_bus m).
Proof.
  intros m [_ [L D]] L15. exists (bus_code (cf_len m)). unfold valid_code.
  assert (R : 0 <= bus_code (cf_len m) <= 15 /\ cf_len m <= iso_length (bus_code (cf_len m)) /\
              forall d, 0 <= d <= 15 -> cf_len m <= iso_length d -> bus_code (cf_len m) <= d).
  { unfold bus_code. destruct (Z.leb_spec (cf_len m) 8); [rewrite iso_small by lia|destruct (Z.leb_spec (cf_len m) 12)].
    - split; [lia|]. split; [lia|]. intros d Hd I. destruct (Z_le_gt_dec d 8); [rewrite iso_small in I by lia; lia|lia].
    - split; [lia|]. split; [cbn; lia|]. intros d Hd I. destruct (Z_le_gt_dec d 8); [rewrite iso_small in I by lia; lia|lia].
    - split; [lia|]. split; [cbn; lia|]. intros d Hd I. destruct (Z_le_gt_dec d 8); [rewrite iso_small in I by lia; lia|].
      destruct (Z.eq_dec d 9) as [->|]; [cbn in I; lia|lia]. }
  destruct R as [R1 [R2 R3]]. split; [exact R1|]. split; [exact R2|]. split; [exact R3|].
  cbn [on_the_bus km_id km_len km_bytes]. split; [reflexivity|]. split; [reflexivity|].
  assert (LF : length (firstn (Z.to_nat (cf_len m)) (cf_data m)) = Z.to_nat (cf_len m)) by (rewrite firstn_length; lia).
  split; [rewrite app_length, repeat_length, LF; lia|]. split.
  - intros i Hi. rewrite app_nth1 by lia. apply nth_firstn_lt. lia.
  - intros i Hi. rewrite app_nth2 by lia. apply nth_repeat.
Qed.

Lemma can_cross : forall f, frame_typed 64 f -> fdlc f <= 15 -> identifier (fid f) <> 0 -> Forall (fun b => 0 <= b < 256) (fdata f) ->
  exists c, crosses f (exact_frame (on_the_bus (filled f c))).
Proof.
  intros f TF L N OC.
  pose (s := iface_make 0 "vcan0" 3). pose (c := CanFd 0 0 (repeat 0 64)). pose (m := on_the_bus (filled f c)).
  pose (fs := [f; frame_default 64; frame_default 64; frame_default 64]).
  assert (TS : iface_typed s) by apply iface_make_typed.
  assert (DT : frame_typed 64 (frame_default 64)).
  { unfold frame_typed. cbn [fdata fdlc fid frame_default]. rewrite repeat_length. lia. }
  assert (TFS : frames_typed fs).
  { split; [reflexivity|]. repeat constructor; auto; try lia; try apply DT; try apply TF; cbn [fdlc frame_default]; lia. }
  assert (CT : canfd_typed c) by (unfold canfd_typed; cbn [cf_id cf_len cf_data c]; rewrite repeat_length; lia).
  pose proof TF as [LF [F0 FI]].
  assert (FL : cf_len (filled f c) = fdlc f) by (unfold filled; cbn [cf_len]; apply Z.mod_small; lia).
  assert (CA : carried (filled f c) m) by (apply on_the_bus_carried; [apply filled_typed; auto|lia]).
  assert (KM : kmsg_typed m).
  { destruct CA as [d [V [_ [_ [KI [KL [KB _]]]]]]]. unfold kmsg_typed. rewrite KI, KL, KB.
    split; [apply (filled_typed f c TF CT)|]. split; [|split; [lia|intros X; exfalso; apply X; reflexivity]].
    pose proof (iso_bound d V). lia. }
  assert (OM : Forall (fun b => 0 <= b < 256) (km_bytes m)).
  { unfold m, on_the_bus. cbn [km_bytes]. apply Forall_app. split.
    - apply Forall_forall. intros x Hx.
      assert (Hin : In x (cf_data (filled f c))) by (rewrite <- (firstn_skipn (Z.to_nat (cf_len (filled f c)))); apply in_or_app; auto).
      unfold filled in Hin. cbn [cf_data] in Hin. apply in_app_or in Hin. destruct Hin as [Hin|Hin].
      + unfold payload in Hin. eapply Forall_forall in OC; [exact OC|].
        rewrite <- (firstn_skipn (Z.to_nat (getDataLength f))). apply in_or_app. auto.
      + assert (Hr : In x (repeat 0 64)).
        { rewrite <- (firstn_skipn (Z.to_nat (getDataLength f)) (repeat 0 64)). apply in_or_app. right. exact Hin. }
        apply repeat_spec in Hr. lia.
    - apply Forall_forall. intros x Hx. apply repeat_spec in Hx. lia. }
  assert (NZ : forall j x, (j < 1)%nat -> nth_error fs j = Some x -> identifier (fid x) <> 0 /\ fdlc x <= 15).
  { intros [|j] x Hj Hx; [|lia]. cbn in Hx. inversion Hx; subst. auto. }
  assert (SE : firstn 1 (buf_after s fs 1) = [filled f c]) by reflexivity.
  pose proof (write_eq (fun _ => (1, 0)) s fs 1 TS TFS ltac:(lia)) as HW. cbv zeta in HW.
  assert (RO : recv_ok (Z.of_nat 1) [m]) by (split; [lia|]; split; [constructor; [exact KM|constructor]|reflexivity]).
  assert (WH : Forall whole [m]) by (constructor; [right; destruct CA as [d CA]; tauto|constructor]).
  destruct (read_whole (Z.of_nat 1) 0 [m] s (repeat (frame_default 64) 4) TS ltac:(split; [reflexivity|repeat constructor; auto; try apply DT; cbn [fdlc frame_default]; lia]) RO ltac:(lia) WH) as [r [HR ER]].
  exists c.
  set (sent := firstn 1 (buf_after s fs 1)) in *.
  eexists (fun _ => (1, 0)), s, fs, 1%nat, 0%nat, _, sent, [m], 0, s, (repeat (frame_default 64) 4), r.
  split; [exact TS|]. split; [exact TFS|]. split; [lia|]. split; [exact NZ|]. split; [lia|]. split; [reflexivity|].
  split; [exact HW|]. split; [reflexivity|]. split; [rewrite SE; constructor; [exact CA|constructor]|].
  split; [constructor; [exact KM|constructor]|]. split; [constructor; [exact OM|constructor]|]. split; [exact TS|].
  split; [split; [reflexivity|repeat constructor; auto; try apply DT; cbn [fdlc frame_default]; lia]|].
  split; [exact HR|].
  assert (AC : accepts (km_id m) = true) by (apply filled_accept; auto; lia).
  unfold accepts in AC. cbn [List.filter] in ER. rewrite AC in ER. cbn [map] in ER.
  destruct (rd_count r) as [|n']; [discriminate|]. destruct (rd_frames r) as [|x xs]; [discriminate|].
  cbn [firstn] in ER. inversion ER. reflexivity.
Qed.

(** Beyond the code, or with a code above 12, what arrives is the padding. *)
Lemma crossed_padding : forall f c i, frame_typed 64 f -> 9 <= fdlc f <= 15 -> fdlc f <= Z.of_nat i \/ 12 < fdlc f ->
  nth i (fdata (exact_frame (on_the_bus (filled f c)))) 0 = 0.
Proof.
  intros f c i TF L H.
  assert (FL : cf_len (filled f c) = fdlc f) by (unfold filled; cbn [cf_len]; apply Z.mod_small; lia).
  unfold exact_frame, on_the_bus. cbn [fdata km_len km_bytes]. rewrite FL. unfold bus_code.
  destruct (Z.leb_spec (fdlc f) 8); [lia|]. destruct (Z.leb_spec (fdlc f) 12).
  - change (Z.to_nat (dlcToLength (iso_length 9))) with 24%nat.
    set (bytes := (firstn (Z.to_nat (fdlc f)) (cf_data (filled f c)) ++ repeat 0 (64 - Z.to_nat (fdlc f)))%list).
    assert (P : forall j, (Z.to_nat (fdlc f) <= j)%nat -> nth j bytes 0 = 0).
    { intros j Hj. unfold bytes. rewrite app_nth2 by (rewrite firstn_length; lia). apply nth_repeat. }
    destruct (Nat.lt_ge_cases i (length (firstn 24 bytes))) as [Hlt|Hge].
    + rewrite app_nth1 by auto. rewrite firstn_length in Hlt. rewrite nth_firstn_lt by lia. apply P. lia.
    + rewrite app_nth2 by auto. apply nth_repeat.
  - change (Z.to_nat (dlcToLength (iso_length 10))) with 0%nat. cbn [firstn app]. apply nth_repeat.
Qed.

Lemma field_lost : forall sw o l id dlc ts, 10 <= sw -> 0 <= id < 2 ^ 32 -> identifier id <> 0 -> 0 <= dlc <= 15 ->
  0 <= o < l -> l <= iso_length dlc -> ~ (l <= dlc <= 12) ->
  exists value scratch dst f g dst', byte_array sw value /\ byte_array sw scratch /\ byte_array sw dst /\
    l <= Z.of_nat (length value) /\ l <= Z.of_nat (length scratch) /\ l <= Z.of_nat (length dst) /\
    field_framed sw value scratch o l id dlc ts f /\ crosses f g /\ field_extracted sw g dst o l dst' /\
    nth (Z.to_nat (l - 1)) dst' 0 <> nth (Z.to_nat (l - 1)) value 0.
Proof.
  intros sw o l id dlc ts W ID NZ D O LI H.
  assert (D9 : 9 <= dlc) by (destruct (Z_le_gt_dec dlc 8); [rewrite iso_small in LI by lia|]; lia).
  assert (L64 : l <= 64) by (pose proof (iso_bound dlc D); lia).
  assert (PW : 2 ^ 10 <= 2 ^ sw) by (apply Z.pow_le_mono_r; lia).
  assert (NR : forall b i, nth i (repeat b 64) 0 = if (i <? 64)%nat then b else 0).
  { intros b i. destruct (Nat.ltb_spec i 64).
    - rewrite (nth_indep _ 0 b) by (rewrite repeat_length; lia). apply nth_repeat.
    - apply nth_overflow. rewrite repeat_length. lia. }
  assert (BA : forall b, 0 <= b < 256 -> byte_array sw (repeat b 64)).
  { intros b Hb. split; [intros i; rewrite NR; destruct (i <? 64)%nat; lia|rewrite repeat_length; lia]. }
  pose proof (BA 1 ltac:(lia)) as BV. pose proof (BA 0 ltac:(lia)) as BS.
  assert (LL : forall b : Z, Z.of_nat (length (repeat b 64)) = 64) by (intros; rewrite repeat_length; reflexivity).
  destruct (a2u_aligned sw (repeat 1 64) (repeat 0 64) o l ltac:(lia) BV BS O ltac:(rewrite LL; lia) ltac:(rewrite LL; lia)) as [packed [P [PL PB]]].
  rewrite repeat_length in PL.
  pose proof (dlcToLength_bound dlc ltac:(lia)) as DB.
  pose proof (frame_make_ok 64 id packed dlc ts ltac:(lia) ltac:(lia) ltac:(lia)) as FM.
  match type of FM with _ = Ret ?x => set (f := x) in * end.
  destruct (frame_make_bytes 64 id packed dlc ts f ltac:(lia) FM) as [EI [ED [_ [EL [EB EZ]]]]].
  assert (TF : frame_typed 64 f) by (unfold frame_typed; rewrite EI, ED, EL; lia).
  assert (OC : Forall (fun b => 0 <= b < 256) (fdata f)).
  { apply Forall_forall. intros x Hx. apply (In_nth _ _ 0) in Hx. destruct Hx as [i [_ <-]].
    destruct (Z_lt_ge_dec (Z.of_nat i) (dlcToLength dlc)); [rewrite EB, PB by lia|rewrite EZ by lia; lia].
    rewrite !NR. destruct (_ && _); destruct (i <? 64)%nat; lia. }
  destruct (can_cross f TF ltac:(lia) ltac:(rewrite EI; auto) OC) as [c CR].
  destruct (crossed_array sw f _ W CR) as [BG LG].
  set (g := exact_frame (on_the_bus (filled f c))) in *.
  destruct (u2a_aligned sw (fdata g) (repeat 0 64) o l ltac:(lia) BG BS O ltac:(lia) ltac:(rewrite LL; lia)) as [d' [U [_ UB]]].
  exists (repeat 1 64), (repeat 0 64), (repeat 0 64), f, g, d'.
  split; auto. split; auto. split; auto. split; [rewrite LL; lia|]. split; [rewrite LL; lia|]. split; [rewrite LL; lia|].
  split; [exists packed, (8 * l - 8 * o); split; auto|]. split; auto. split; [exists (8 * l - 8 * o); auto|].
  rewrite UB. rewrite Z2Nat.id by lia. destruct (Z.leb_spec o (l - 1)); [|lia]. destruct (Z.ltb_spec (l - 1) l); [|lia]. cbn [andb].
  unfold g. rewrite crossed_padding by (rewrite ?ED; auto; lia). rewrite NR. destruct (Nat.ltb_spec (Z.to_nat (l - 1)) 64); lia.
Qed.
