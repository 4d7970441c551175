(** Proofs about the example program as a whole. *)
From Coq Require Import ZArith Bool String List Lia Permutation Sorted.
From Verif Require Import Outcome ResultModel CanFrameModel SocketCanModel SocketCanSpec SocketCanProofs SocketCanHist CanFrameProofs GroupModel GroupProofs
  ManagerModel ManagerSpec ManagerProofs ParseArgsModel ParseArgsSpec ParseArgsProofs LoopBackModel LoopBackSpec LoopBackProofs
  MainModel.
Import ListNotations.
Open Scope Z_scope.

(** ** Descriptors are not changed by writing and reading *)
Lemma write_fd : forall k s fs n w, write k s fs n = Ret w -> getSocketDescriptor (wr_if w) = getSocketDescriptor s.
Proof.
  intros k s fs n w H. unfold write in H. destruct (n =? 0)%nat; [assert (w = WriteOut s BadArgument 0 None) as -> by congruence; reflexivity|].
  apply bind_ret_inv in H. destruct H as (b & _ & H). destruct (k (firstn n b)) as [res errno].
  destruct (res <=? 0); [|destruct (res <? Z.of_nat n)];
    match type of H with Ret ?x = _ => assert (w = x) as -> by congruence end; reflexivity.
Qed.

Lemma read_fd : forall res errno msgs s out r, read res errno msgs s out = Ret r -> getSocketDescriptor (rd_if r) = getSocketDescriptor s.
Proof.
  intros res errno msgs s out r H. unfold read in H. destruct (res <=? 0).
  - match type of H with Ret ?x = _ => assert (r = x) as -> by congruence end; reflexivity.
  - cbn zeta in H. apply bind_ret_inv in H. destruct H as ([[st out'] k] & _ & H).
    match type of H with Ret ?x = _ => assert (r = x) as -> by congruence end; reflexivity.
Qed.

Lemma replace_fds : forall g i s s', nth_error g i = Some s -> getSocketDescriptor s' = getSocketDescriptor s ->
  map getSocketDescriptor (replace_nth i s' g) = map getSocketDescriptor g.
Proof.
  induction g as [|x g IH]; intros [|i] s s' N E; cbn [nth_error] in N; try discriminate; cbn [replace_nth map].
  - congruence.
  - f_equal. eauto.
Qed.

Lemma group_write_fds : forall k g i fs n c g' r c' sent, group_write k g i fs n c = Ret (g', r, c', sent) ->
  map getSocketDescriptor g' = map getSocketDescriptor g.
Proof.
  intros k g i fs n c g' r c' sent H. unfold group_write in H. destruct (_ <=? i); [congruence|].
  destruct (nth_error g (Z.to_nat i)) as [s|] eqn:N; [|discriminate].
  apply bind_ret_inv in H. destruct H as (w & W & H).
  assert (g' = replace_nth (Z.to_nat i) (wr_if w) g) as -> by congruence.
  eapply replace_fds; eauto. eapply write_fd; eauto.
Qed.

Lemma start_writes_fds : forall n i send g found g' found' ok sents, start_writes n i send g found = Ret (g', found', ok, sents) ->
  map getSocketDescriptor g' = map getSocketDescriptor g.
Proof.
  induction n as [|n IH]; intros i send g found g' found' ok sents H; cbn [start_writes] in H; [congruence|].
  apply bind_ret_inv in H. destruct H as ([[[g1 r] c] sent] & W & H). apply group_write_fds in W.
  destruct (negb (result_not r)).
  - apply bind_ret_inv in H. destruct H as ([[[g2 f2] ok2] s2] & T & H). apply IH in T.
    assert (g' = g2) as -> by congruence. congruence.
  - assert (g' = g1) as -> by congruence. exact W.
Qed.

Lemma read_round_fds : forall n i recv g frames g' batch, read_round n i recv g frames = Ret (g', batch) ->
  map getSocketDescriptor g' = map getSocketDescriptor g.
Proof.
  induction n as [|n IH]; intros i recv g frames g' batch H; cbn [read_round] in H; [congruence|].
  destruct (recv i) as [[res errno] msgs]. apply bind_ret_inv in H. destruct H as ([[[g1 r] c] f1] & R & H).
  apply bind_ret_inv in H. destruct H as ([g2 rest] & T & H). assert (g' = g2) as -> by congruence. apply IH in T. rewrite T.
  unfold group_read in R. destruct (_ <=? Z.of_nat i); [congruence|].
  destruct (nth_error g (Z.to_nat (Z.of_nat i))) as [s|] eqn:N; [|discriminate].
  apply bind_ret_inv in R. destruct R as (ro & RO & R).
  assert (g1 = replace_nth (Z.to_nat (Z.of_nat i)) (rd_if ro) g) as -> by congruence.
  eapply replace_fds; eauto. eapply read_fd; eauto.
Qed.

(** ** Every socket is closed on every way out *)
Lemma close_group : forall g live0 tr live1 other, NoDup live1 -> replay live0 tr = Some live1 ->
  Permutation live1 (other ++ map getSocketDescriptor g) ->
  exists live2, replay live0 (destroy g tr) = Some live2 /\ Permutation live2 other.
Proof.
  intros g live0 tr live1 other ND R P. rewrite fold_destroy, replay_app, R.
  destruct (replay_close (map getSocketDescriptor g) live1 other ND P) as (l & A & B & _). eauto.
Qed.

Lemma NoDup_app_l : forall (a b : list Z), NoDup (a ++ b) -> NoDup a.
Proof.
  induction a as [|x a IH]; intros b N; [constructor|]. cbn in N. inversion N; subst. constructor; [|eapply IH; eauto].
  intros I. apply H1. apply in_or_app. now left.
Qed.

Lemma main_live : forall fuel args kernel send rounds live log code w',
  fresh_descriptors live kernel -> NoDup live ->
  main fuel args kernel send rounds (World [] log) = Some (Ret (code, w')) ->
  exists live' leaked, replay live (w_trace w') = Some live' /\ NoDup live' /\ Forall (eq 0) leaked /\ Permutation live' (live ++ leaked).
Proof.
  intros fuel args kernel send rounds live log code w' FR ND H. unfold main in H.
  destruct (parse_args fuel args) as [[[r ns]|]|]; try discriminate.
  destruct (negb (Success =? r)).
  { assert (w' = World [] log) as -> by congruence. exists live, []. rewrite app_nil_r. cbn. auto. }
  destruct (start_test _ _ _ _ _ _) as [[[[[og lb] sents] w1]|]|] eqn:ST; try discriminate.
  assert (G : exists live1 leaked, replay live (w_trace w1) = Some live1 /\ NoDup live1 /\ Forall (eq 0) leaked /\
                Permutation live1 ((live ++ leaked) ++ owned og)).
  { unfold start_test in ST. cbn [loopback_make lb_found length] in ST. change (0 <? Z.of_nat 0) with false in ST. cbn iota in ST.
    destruct (negb (doesReceiveOwnMessages _)).
    { assert (w1 = World [] log /\ og = None) as [-> ->] by (split; congruence). exists live, []. rewrite !app_nil_r. cbn. auto. }
    destruct (startInterfaceGroup _ _ _ _ _ _ _) as [[[[r1 out] w0]|]|] eqn:SG; try discriminate.
    assert (L0 : exists live0 leaked, replay live (w_trace w0) = Some live0 /\ NoDup live0 /\ Forall (eq 0) leaked /\
                   Permutation live0 ((live ++ leaked) ++ owned out)).
    { destruct (start_live fuel (Manager (ns_devices ns) true true) (Some test_filters) (length test_filters) kernel None log live live r1 out w0) as (live' & leaked & A & B & C & D); auto.
      - cbn; lia.
      - cbn [owned]. rewrite app_nil_r. apply Permutation_refl.
      - exists live', leaked. rewrite <- app_assoc. auto. }
    destruct (isFailure r1).
    { assert (og = out /\ w1 = w0) as [-> ->] by (split; congruence). exact L0. }
    destruct out as [g|]; [|discriminate].
    destruct (start_writes _ _ _ _ _) as [[[[g1 found] ok] s1]|] eqn:SW; try discriminate.
    apply start_writes_fds in SW. destruct L0 as (live0 & leaked & R0 & N0 & F0 & P0).
    destruct ((0 <? getInterfaceCount g) && ok).
    - assert (og = Some g1 /\ w1 = w0) as [-> ->] by (split; congruence). exists live0, leaked. cbn [owned] in *. rewrite SW. auto.
    - assert (og = None /\ w1 = World (destroy g1 (w_trace w0)) (w_filters w0)) as [-> ->] by (split; congruence).
      cbn [w_trace owned] in *. rewrite <- SW in P0. destruct (close_group g1 live _ live0 _ N0 R0 P0) as (live2 & A & B).
      exists live2, leaked. rewrite app_nil_r. split; [exact A|]. split; [|auto]. eapply Permutation_NoDup; [apply Permutation_sym; exact B|].
      apply (Permutation_NoDup P0) in N0. revert N0. generalize (map getSocketDescriptor g1). generalize (live ++ leaked).
      intros a b N. apply NoDup_app_l in N. exact N. }
  destruct G as (live1 & leaked & R1 & N1 & F1 & P1). destruct og as [g|].
  - destruct (run_test _ _ _ _) as [[passed|]|]; try discriminate. cbn [stopInterfaceGroup destroy_ptr] in H.
    assert (w' = World (destroy g (w_trace w1)) (w_filters w1)) as -> by congruence. cbn [w_trace].
    destruct (close_group g live _ live1 _ N1 R1 P1) as (live2 & A & B). exists live2, leaked. split; [exact A|]. split; [|auto].
    eapply Permutation_NoDup; [apply Permutation_sym; exact B|]. apply (Permutation_NoDup P1) in N1. apply NoDup_app_l in N1. exact N1.
  - assert (w' = w1) as -> by congruence. cbn [owned] in P1. rewrite app_nil_r in P1. exists live1, leaked. auto.
Qed.

Lemma main_sockets : forall fuel args kernel send rounds live log code w',
  fresh_descriptors live kernel -> NoDup live -> In 0 live ->
  main fuel args kernel send rounds (World [] log) = Some (Ret (code, w')) ->
  exists live', replay live (w_trace w') = Some live' /\ Permutation live' live.
Proof.
  intros fuel args kernel send rounds live log code w' FR ND Z0 H.
  destruct (main_live _ _ _ _ _ _ _ _ _ FR ND H) as (live' & leaked & A & B & C & D). exists live'. split; [exact A|].
  destruct leaked as [|z leaked]; [rewrite app_nil_r in D; exact D|]. exfalso.
  inversion C; subst. eapply Permutation_NoDup in D; [|exact B]. apply NoDup_remove_2 in D. apply D. apply in_or_app. now left.
Qed.

(** ** The exit status *)
Lemma started_exact : forall fuel m kernel send w, (length (m_required m) <= 255)%nat -> (length (m_required m) < fuel)%nat ->
  m_own m = true ->
  exists ans tr ups og lb sents w', start_test fuel loopback_make m kernel send w = Some (Ret (og, lb, sents, w')) /\
    answered kernel (m_required m) tr ans /\ (exists more, w_trace w' = (tr ++ more)%list) /\ up_positions m ans ups /\
    match og with
    | None => ups = [] \/ ~ accepted send (length ups)
    | Some g => length g = length ups /\ (0 < length g <= 255)%nat /\ lb = LoopBack (repeat 0 (length g)) Failure /\
                Forall iface_typed g /\ accepted send (length ups)
    end.
Proof.
  intros fuel m kernel send w B F OWN. unfold start_test, loopback_make. cbn [lb_found length]. change (0 <? Z.of_nat 0) with false. cbn iota.
  unfold doesReceiveOwnMessages. rewrite OWN. cbn [negb].
  assert (OK : configs_ok (Some test_filters) 1) by (cbn; lia). change (length test_filters) with 1%nat.
  destruct (start_spec m (Some test_filters) 1 kernel None w OK B) as (ans & r & out & w' & ST & LA & AK & RN & RS & RC & ON & OG).
  rewrite ST by auto.
  assert (NF : r = NotFound -> isFailure r = true) by (intros ->; reflexivity).
  assert (SF : r <> NotFound -> isFailure r = false) by (intros N; destruct RC as [R|[R|R]]; [congruence|rewrite R; reflexivity|rewrite R; reflexivity]).
  exists ans, (w_trace w').
  destruct (Z.eq_dec r NotFound) as [NFR|NFR].
  { rewrite (NF NFR), (ON NFR). exists []. do 4 eexists. split; [reflexivity|]. split; [split; auto|].
    split; [exists []; now rewrite app_nil_r|]. split; [|left; reflexivity].
    split; [constructor|]. intros t. split; [intros []|]. intros (name & a & E1 & E2 & U). apply RN in NFR.
    eapply Forall2_nth_error in NFR; eauto. contradiction. }
  rewrite (SF NFR). destruct (OG NFR) as (g & -> & M1 & M2 & SO).
  assert (TG : Forall iface_typed g).
  { apply Forall_forall. intros s S. destruct (M2 s S) as (t & name & a & _ & _ & ->). apply iface_make_typed. }
  assert (LG : (length g <= length (m_required m))%nat).
  { apply sorted_length; auto. intros s S. destruct (M2 s S) as (t & name & a & E & _ & ->). cbn [iface_make if_index].
    assert (t < length (m_required m))%nat by (apply nth_error_Some; congruence). lia. }
  assert (C : getInterfaceCount g = Z.of_nat (length g)) by (unfold getInterfaceCount; lia). rewrite C, Nat2Z.id.
  assert (UP : up_positions m ans (map (fun s => Z.to_nat (if_index s)) g)).
  { split.
    - assert (PO : forall s, In s g -> 0 <= if_index s).
      { intros s S. destruct (M2 s S) as (t & name & a & _ & _ & ->). cbn [iface_make if_index]. lia. }
      clear - SO PO. induction SO as [|s g SO IH FA]; cbn [map]; constructor.
      + apply IH. intros s' S. apply PO. now right.
      + apply Forall_forall. intros x X. apply in_map_iff in X. destruct X as (s' & <- & S). rewrite Forall_forall in FA.
        specialize (FA s' S). assert (0 <= if_index s) by (apply PO; now left). lia.
    - intros t. rewrite in_map_iff. split.
      + intros (s & E & S). destruct (M2 s S) as (t' & name & a & E1 & E2 & ->). cbn [iface_make if_index] in E. rewrite Nat2Z.id in E. subst t'.
        exists name, a. split; auto. split; auto. change [Filter 0 0] with test_filters. apply (proj2 (M1 t name a E1 E2)). exact S.
      + intros (name & a & E1 & E2 & U). eexists. split; [|apply (proj1 (M1 t name a E1 E2)); exact U]. cbn [iface_make if_index]. apply Nat2Z.id. }
  exists (map (fun s => Z.to_nat (if_index s)) g). rewrite map_length.
  assert (FG : forall j s, (0 <= j)%nat -> nth_error g j = Some s -> fresh s).
  { intros j s _ N. apply nth_error_In in N. destruct (M2 s N) as (t & name & a & _ & _ & ->). do 3 eexists. reflexivity. }
  destruct (start_writes_spec (length g) 0 send g [] TG ltac:(lia) FG) as (g' & found & ok & sents & SW & L' & T' & O1 & O2).
  rewrite SW.
  destruct (Z.ltb_spec 0 (Z.of_nat (length g))) as [P|P]; [destruct ok|]; cbn [andb].
  - do 4 eexists. split; [reflexivity|]. split; [split; auto|]. split; [exists []; now rewrite app_nil_r|]. split; [exact UP|].
    destruct (O1 eq_refl) as (E1 & E2).
    split; [exact L'|]. split; [lia|]. split; [rewrite E1, L'; reflexivity|]. split; [exact T'|].
    intros k K. apply (proj1 O2 eq_refl). lia.
  - do 4 eexists. split; [reflexivity|]. split; [split; auto|]. cbn [w_trace].
    split; [exists (map (fun s => Closed (getSocketDescriptor s)) g'); rewrite fold_destroy; now rewrite map_map|]. split; [exact UP|]. right.
    intros A. assert (X : false = true); [|discriminate]. apply O2. intros k K. apply A. lia.
  - do 4 eexists. split; [reflexivity|]. split; [split; auto|]. cbn [w_trace].
    split; [exists (map (fun s => Closed (getSocketDescriptor s)) g'); rewrite fold_destroy; now rewrite map_map|]. split; [exact UP|].
    left. destruct g; [reflexivity|cbn [length] in P; lia].
Qed.

Lemma main_exit : forall l fuel kernel send rounds w,
  ~ late_long_device l -> (length (devices l) <= 255)%nat -> (length l < fuel)%nat -> rounds_ok 255 rounds ->
  (devices l = [] -> main fuel (command_line l) kernel send rounds w = Some (Ret (-1, w))) /\
  (devices l <> [] ->
   exists ans tr ups, answered kernel (devices l) tr ans /\ up_positions (Manager (devices l) true true) ans ups /\
    match main fuel (command_line l) kernel send rounds w with
    | Some UB => False
    | Some (Ret (code, w')) =>
        (exists more, w_trace w' = (tr ++ more)%list) /\
        (code = 0 \/ code = -1) /\
        (code = 0 <-> ups <> [] /\ accepted send (length ups) /\ all_arrived (in_time rounds) (length ups))
    | None => ups <> [] /\ accepted send (length ups) /\ in_time rounds = rounds /\
        (continuous l = true \/ ~ all_arrived rounds (length ups))
    end).
Proof.
  intros l fuel kernel send rounds w NL LD F RO. unfold main.
  rewrite (proj2 (parse_documented l fuel F) NL).
  assert (LL : (length (devices l) <= length l)%nat).
  { clear. induction l as [|x l IH]; [cbn; lia|]. unfold devices in *. cbn [flat_map]. rewrite app_length. destruct x; cbn [devices_of length]; lia. }
  split.
  { intros ->. reflexivity. }
  intros NE. destruct (devices l) as [|d0 ds] eqn:D; [congruence|]. clear NE. rewrite <- D in *. cbn [ns_devices ns_continuous].
  change (negb (Success =? Success)) with false. cbn iota.
  destruct (started_exact fuel (Manager (devices l) true true) kernel send w) as (ans & tr & ups & og & lb & sents & w1 & ST & AN & (more & TR) & UP & M);
    cbn [m_required m_own]; auto; try lia.
  cbn [m_required] in AN. exists ans, tr, ups. split; [exact AN|]. split; [exact UP|]. rewrite ST. destruct og as [g|].
  - destruct M as (LG & BG & -> & TG & AC).
    assert (RG : rounds_ok (length g) rounds).
    { unfold rounds_ok in *. eapply Forall_impl; [|exact RO]. intros rn H i Hi. apply H. lia. }
    assert (V := run_verdict (continuous l) rounds g TG ltac:(lia) RG). rewrite LG in *.
    assert (UN : ups <> []) by (intros ->; cbn [length] in BG; lia).
    destruct (run_test _ _ _ _) as [[passed|]|]; auto. cbn [stopInterfaceGroup destroy_ptr w_trace].
    split; [exists (more ++ map (fun s => Closed (getSocketDescriptor s)) g)%list; rewrite fold_destroy, map_map, TR, app_assoc; reflexivity|].
    destruct V as [V1 V2].
    destruct (Z.eq_dec passed Success) as [->|NS].
    + split; [left; reflexivity|]. split; [|reflexivity]. intros _. split; auto. split; auto. now apply V1.
    + assert (NA : ~ all_arrived (in_time rounds) (length ups)) by (intros A; apply V1 in A; congruence).
      apply V2 in NA as PF. subst passed. split; [right; reflexivity|]. split; [discriminate|tauto].
  - split; [eauto|]. split; [right; reflexivity|]. split; [discriminate|tauto].
Qed.

Lemma main_too_many : forall l fuel kernel send rounds w,
  ~ late_long_device l -> (255 < length (devices l))%nat -> (length l < fuel)%nat ->
  main fuel (command_line l) kernel send rounds w = None.
Proof.
  intros l fuel kernel send rounds w NL LD F. unfold main. rewrite (proj2 (parse_documented l fuel F) NL).
  destruct (devices l) as [|d0 ds] eqn:D; [cbn in LD; lia|]. rewrite <- D in *. cbn [ns_devices ns_continuous].
  change (negb (Success =? Success)) with false. cbn iota. unfold start_test. change (0 <? Z.of_nat (length (lb_found loopback_make))) with false.
  cbn [negb doesReceiveOwnMessages m_own]. unfold startInterfaceGroup. rewrite start_diverges; [reflexivity| | |].
  - cbn. lia.
  - cbn [m_required]. lia.
  - lia.
Qed.
