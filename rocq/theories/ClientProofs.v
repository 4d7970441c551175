(** Proofs about programs that use the interface manager. *)
From Coq Require Import ZArith Bool String List Lia Permutation Sorted.
From Verif Require Import Outcome ResultModel CanFrameModel SocketCanModel SocketCanSpec SocketCanProofs SocketCanHist CanFrameProofs
  GroupModel GroupSpec GroupProofs ManagerModel ManagerSpec ManagerProofs LoopBackProofs MainProofs ClientModel ClientSpec.
Import ListNotations.
Open Scope Z_scope.

(** ** Groups are small and well formed *)
Definition group_ok (g : group) : Prop := (length g <= 255)%nat /\ Forall iface_typed g.
Definition client_ok (c : client) : Prop := match cl_group c with Some g => group_ok g | None => True end.

Lemma sorted_short : forall n l b, StronglySorted Z.lt l -> (forall x, In x l -> b <= x < b + Z.of_nat n) -> (length l <= n)%nat.
Proof.
  induction n as [|n IH]; intros l b S H.
  - destruct l as [|x l]; [auto|]. specialize (H x (or_introl eq_refl)). lia.
  - destruct l as [|x l]; [cbn; lia|]. cbn [length]. inversion S as [|? ? S1 F]; subst.
    apply le_n_S. apply (IH l (b + 1)); auto. intros y Y. rewrite Forall_forall in F. specialize (F y Y).
    pose proof (H x (or_introl eq_refl)). pose proof (H y (or_intror Y)). lia.
Qed.

Lemma sorted_map : forall g, StronglySorted (fun s s' => if_index s < if_index s') g -> StronglySorted Z.lt (map if_index g).
Proof.
  induction 1; cbn [map]; constructor; auto. rewrite Forall_forall in *. intros x X. apply in_map_iff in X.
  destruct X as (s & <- & I). auto.
Qed.

Lemma start_ok : forall m configs num kernel out w, configs_ok configs num -> (length (m_required m) <= 255)%nat ->
  match out with Some g => group_ok g | None => True end ->
  exists r out' w', (forall fuel, (255 < fuel)%nat -> startInterfaceGroup fuel m configs num kernel out w = Some (Ret (r, out', w'))) /\
    match out' with Some g => group_ok g | None => True end /\
    (r = NotFound /\ out' = out \/ (r = Success \/ r = SuccessPartial) /\ exists g, out' = Some g).
Proof.
  intros m configs num kernel out w OK LEN GO.
  destruct (start_spec m configs num kernel out w OK LEN) as (ans & r & out' & w' & E & LA & _ & _ & _ & R & N & Y).
  exists r, out', w'. split; [intros; apply E; lia|].
  destruct R as [->|R]; [rewrite (N eq_refl); auto|].
  assert (NR : r <> NotFound) by (destruct R; subst; discriminate).
  destruct (Y NR) as (g & -> & _ & M & S). split; [|right; eauto]. split.
  - apply sorted_map in S. rewrite <- (map_length if_index). apply Nat.le_trans with (length (m_required m)); auto.
    apply (sorted_short _ _ 0); auto. intros x X. apply in_map_iff in X. destruct X as (s & <- & I).
    destruct (M s I) as (t & name & a & T & _ & ->). cbn [iface_make if_index].
    assert (t < length (m_required m))%nat by (apply nth_error_Some; congruence). lia.
  - apply Forall_forall. intros s I. destruct (M s I) as (t & name & a & _ & _ & ->). apply iface_make_typed.
Qed.

Lemma write_ok : forall k g i fs n, group_ok g -> 0 <= i <= 255 -> frames_typed fs -> (n <= 4)%nat ->
  exists g' r c sent, group_write k g i fs n 0 = Ret (g', r, c, sent) /\ group_ok g'.
Proof.
  intros k g i fs n [L T] I F N. unfold group_write. destruct (Z.leb_spec (Z.of_nat (length g)) i).
  - do 4 eexists. split; [reflexivity|split; auto].
  - destruct (nth_error g (Z.to_nat i)) as [s|] eqn:E; [|apply nth_error_None in E; lia].
    assert (TS : iface_typed s) by (rewrite Forall_forall in T; apply T; eapply nth_error_In; eauto).
    destruct (write_typed k s fs n TS F N) as (w & -> & TW). cbn [bind]. do 4 eexists. split; [reflexivity|].
    split; [now rewrite replace_nth_length|now apply replace_nth_Forall].
Qed.

Lemma read_ok : forall res errno msgs g i out, group_ok g -> 0 <= i <= 255 -> frames_typed out -> recv_ok res msgs ->
  exists g' r c frames, group_read res errno msgs g i out 0 = Ret (g', r, c, frames) /\ group_ok g'.
Proof.
  intros res errno msgs g i out [L T] I F RO. unfold group_read. destruct (Z.leb_spec (Z.of_nat (length g)) i).
  - do 4 eexists. split; [reflexivity|split; auto].
  - destruct (nth_error g (Z.to_nat i)) as [s|] eqn:E; [|apply nth_error_None in E; lia].
    assert (TS : iface_typed s) by (rewrite Forall_forall in T; apply T; eapply nth_error_In; eauto).
    destruct (read_typed res errno msgs s out TS F RO) as (rd & -> & TR & _). cbn [bind]. do 4 eexists. split; [reflexivity|].
    split; [now rewrite replace_nth_length|now apply replace_nth_Forall].
Qed.

Lemma group_read_fds : forall res errno msgs g i out c g' r c' fs, group_read res errno msgs g i out c = Ret (g', r, c', fs) ->
  map getSocketDescriptor g' = map getSocketDescriptor g.
Proof.
  intros res errno msgs g i out c g' r c' fs R. unfold group_read in R. destruct (_ <=? i); [congruence|].
  destruct (nth_error g (Z.to_nat i)) as [s|] eqn:N; [|discriminate].
  apply bind_ret_inv in R. destruct R as (ro & RO & R).
  assert (g' = replace_nth (Z.to_nat i) (rd_if ro) g) as -> by congruence.
  eapply replace_fds; eauto. eapply read_fd; eauto.
Qed.

Lemma configure_defined : forall ans fd configs num log, configs_ok configs num -> configureFilters ans fd configs num log <> UB.
Proof.
  intros ans fd configs num log OK. destruct configs as [cs|]; cbn [configs_ok] in OK.
  - unfold configureFilters. cbn [andb]. destruct (Nat.eqb_spec num 0).
    + destruct (negb _); discriminate.
    + rewrite convert_eq by auto. cbn [bind]. destruct (negb _); discriminate.
  - unfold configureFilters. destruct (Nat.eqb_spec num 0); cbn [negb andb].
    + destruct (negb _); discriminate.
    + unfold CAN_RAW_FILTER_MAX. destruct (Z.leb_spec (Z.of_nat num) 512); [discriminate|lia].
Qed.

Lemma reconfigure_defined : forall g ans configs n, configs_ok configs n -> forall fuel i t log, 0 <= i ->
  reconfigure_loop fuel i t g ans configs n log <> Some UB.
Proof.
  intros g ans configs n OK. induction fuel as [|k IH]; intros i t log I; [discriminate|]. cbn [reconfigure_loop].
  destruct (Z.ltb_spec i (Z.of_nat (length g))); [|discriminate].
  destruct (nth_error g (Z.to_nat i)) as [s|] eqn:E; [|apply nth_error_None in E; lia].
  pose proof (configure_defined (ans t) (getSocketDescriptor s) configs n log OK) as D.
  destruct (configureFilters _ _ _ _ _) as [[r log']|]; [|congruence].
  destruct (result_not r); [discriminate|]. apply IH. apply Z.mod_pos_bound. lia.
Qed.

Lemma reconfigure_mono : forall g ans configs n f1 i t log v, reconfigure_loop f1 i t g ans configs n log = Some v ->
  forall f2, (f1 <= f2)%nat -> reconfigure_loop f2 i t g ans configs n log = Some v.
Proof.
  intros g ans configs n. induction f1 as [|f1 IH]; intros i t log v E f2 L; [discriminate|]. destruct f2 as [|f2]; [lia|].
  cbn [reconfigure_loop] in *. destruct (i <? _); auto. destruct (nth_error _ _); auto.
  destruct (configureFilters _ _ _ _ _) as [[r log']|]; auto. destruct (result_not r); auto. apply IH; auto. lia.
Qed.

Lemma start_mono : forall m configs n kernel f1 out w v, startInterfaceGroup f1 m configs n kernel out w = Some v ->
  forall f2, (f1 <= f2)%nat -> startInterfaceGroup f2 m configs n kernel out w = Some v.
Proof.
  intros m configs n kernel f1 out w v E f2 L. unfold startInterfaceGroup in *.
  destruct (start_loop f1 0 0 m configs n kernel [] w) as [x|] eqn:S; [|discriminate].
  assert (M : forall f1 i t acc w v, start_loop f1 i t m configs n kernel acc w = Some v ->
     forall f2, (f1 <= f2)%nat -> start_loop f2 i t m configs n kernel acc w = Some v).
  { clear. induction f1 as [|f1 IH]; intros i t acc w v E f2 L; [discriminate|]. destruct f2 as [|f2]; [lia|].
    cbn [start_loop] in *. destruct (i <? _); auto. destruct (nth_error _ _); auto.
    destruct (createInterface _ _ _ _ _ _ _) as [[[r o] w1]|]; auto. apply IH; auto. lia. }
  rewrite (M _ _ _ _ _ _ S f2 L). exact E.
Qed.

Lemma perform_mono : forall m o c f1 v, perform f1 m o c = Some v -> forall f2, (f1 <= f2)%nat -> perform f2 m o c = Some v.
Proof.
  intros m o [p w] f1 v E f2 L. destruct o; cbn [perform cl_group cl_world] in *; auto.
  - destruct (startInterfaceGroup f1 _ _ _ _ _ _) as [x|] eqn:S; [|discriminate]. rewrite (start_mono _ _ _ _ _ _ _ _ S f2 L). exact E.
  - destruct p as [g|]; auto. unfold reconfigureFilters in *.
    destruct (reconfigure_loop f1 _ _ _ _ _ _ _) as [x|] eqn:S; [|discriminate]. rewrite (reconfigure_mono _ _ _ _ _ _ _ _ _ S f2 L). exact E.
Qed.

Lemma perform_det : forall m o c f1 f2 v1 v2, perform f1 m o c = Some v1 -> perform f2 m o c = Some v2 -> v1 = v2.
Proof.
  intros m o c f1 f2 v1 v2 A B. destruct (Nat.le_ge_cases f1 f2) as [L|L].
  - rewrite (perform_mono _ _ _ _ _ A f2 L) in B. congruence.
  - rewrite (perform_mono _ _ _ _ _ B f1 L) in A. congruence.
Qed.

Lemma perform_ok : forall live m o c, (length (m_required m) <= 255)%nat -> client_ok c -> legal live o c ->
  exists r c', (forall fuel, (255 < fuel)%nat -> perform fuel m o c = Some (Ret (r, c'))) /\ client_ok c'.
Proof.
  intros live m o [p w] LEN CO LG. unfold client_ok in *. cbn [cl_group] in CO. destruct o; cbn [perform legal cl_group cl_world] in *.
  - destruct LG as [OK _]. destruct (start_ok m configs num kernel p w OK LEN CO) as (r & p' & w' & E & G & _).
    exists (Started r), (Client p' w'). split; [intros fuel F; now rewrite E by auto|exact G].
  - exists (Stopped Success). eexists. split; [intros; reflexivity|exact I].
  - destruct LG as [N OK]. destruct p as [g|]; [|congruence]. destruct CO as [L T]. unfold reconfigureFilters.
    assert (A : exists r log, forall fuel, (255 < fuel)%nat -> reconfigure_loop fuel 0 0 g ans configs num (w_filters w) = Some (Ret (r, log))).
    { pose proof (reconfigure_terminates g ans configs num L (S (length g)) 0 0%nat (w_filters w) ltac:(lia) ltac:(lia)) as A.
      pose proof (reconfigure_defined g ans configs num OK (S (length g)) 0 0%nat (w_filters w) ltac:(lia)) as B.
      destruct (reconfigure_loop (S (length g)) _ _ _ _ _ _ _) as [[[r log]|]|] eqn:E; try congruence.
      exists r, log. intros fuel F. eapply reconfigure_mono; eauto. lia. }
    destruct A as (r & log & A). exists (Reconfigured r), (Client (Some g) (World (w_trace w) log)).
    split; [intros fuel F; now rewrite A by auto|split; auto].
  - destruct LG as (N & I & F & NN). destruct p as [g|]; [|congruence].
    destruct (write_ok sendmmsg g index frames frames_len CO I F NN) as (g' & r & ct & sent & -> & G).
    do 2 eexists. split; [intros; reflexivity|exact G].
  - destruct LG as (N & I & F & RO). destruct p as [g|]; [|congruence].
    destruct (read_ok res errno msgs g index out CO I F RO) as (g' & r & ct & fr & -> & G).
    do 2 eexists. split; [intros; reflexivity|exact G].
Qed.

Lemma history_ok : forall live m h c, (length (m_required m) <= 255)%nat -> history live m h c -> client_ok c.
Proof.
  intros live m h c LEN H. induction H as [|h c o fuel r c' H IH LG E]; [exact Logic.I|].
  destruct (perform_ok live m o c LEN IH LG) as (r' & c2 & E' & G).
  assert (Q := perform_det m o c fuel 256 _ _ E (E' 256%nat ltac:(lia))). congruence.
Qed.

(** ** Sockets *)
Lemma start_sockets : forall fuel m configs num kernel out w live now other r out' w',
  configs_ok configs num -> fresh_descriptors live kernel ->
  replay live (w_trace w) = Some now -> NoDup now -> Permutation now (other ++ owned out) ->
  startInterfaceGroup fuel m configs num kernel out w = Some (Ret (r, out', w')) ->
  exists now' zeros, replay live (w_trace w') = Some now' /\ NoDup now' /\ Forall (eq 0) zeros /\
    Permutation now' (other ++ zeros ++ owned out').
Proof.
  intros fuel m configs num kernel out w live now other r out' w' OK FR R0 ND P E. unfold startInterfaceGroup in E.
  destruct (start_loop _ _ _ _ _ _ _ _ _) as [[[g w1]|]|] eqn:L; try discriminate.
  assert (Q := start_loop_live m configs num kernel live OK FR fuel 0 0%nat [] w now (other ++ owned out) [] g w1).
  destruct Q as (live1 & zeros & R1 & ND1 & Z1 & P1); auto; [cbn [map app]; now rewrite !app_nil_r|].
  rewrite app_nil_r in P1. destruct g as [|s g].
  - injection E as <- <- <-. exists live1, zeros. repeat split; auto. rewrite P1. cbn [map]. rewrite app_nil_r, <- app_assoc.
    apply Permutation_app_head, Permutation_app_comm.
  - injection E as <- <- <-. cbn [owned w_trace]. set (g' := s :: g) in *. destruct out as [og|]; cbn [destroy_ptr owned] in *.
    + destruct (close_group og live (w_trace w1) live1 (other ++ zeros ++ map getSocketDescriptor g')) as (l & A & B); auto.
      { rewrite P1. rewrite <- !app_assoc. apply Permutation_app_head. rewrite Permutation_app_comm. now rewrite <- !app_assoc. }
      exists l, zeros. split; [exact A|]. split; auto.
      rewrite fold_destroy, replay_app, R1 in A.
      destruct (replay_close (map getSocketDescriptor og) live1 (other ++ zeros ++ map getSocketDescriptor g')) as (l' & A' & _ & C); auto.
      { rewrite P1. rewrite <- !app_assoc. apply Permutation_app_head. rewrite Permutation_app_comm. now rewrite <- !app_assoc. }
      congruence.
    + exists live1, zeros. rewrite app_nil_r in P1. auto.
Qed.

Lemma history_sockets : forall live m h c, NoDup live -> history live m h c ->
  exists now zeros, replay live (w_trace (cl_world c)) = Some now /\ NoDup now /\ Forall (eq 0) zeros /\
    Permutation now (live ++ zeros ++ owned (cl_group c)).
Proof.
  intros live m h c ND H. induction H as [|h c o fuel r c' H IH LG E].
  - exists live, []. cbn. rewrite app_nil_r. repeat split; auto.
  - destruct IH as (now & zeros & R & N & Z & P). destruct c as [p w]. destruct o; cbn [perform legal cl_group cl_world] in *.
    + destruct LG as [OK FR]. destruct (startInterfaceGroup _ _ _ _ _ _ _) as [[[[r0 p'] w']|]|] eqn:S; try discriminate.
      injection E as <- <-. cbn [cl_group cl_world] in *.
      destruct (start_sockets fuel m configs num kernel p w live now (live ++ zeros) r0 p' w' OK FR R N) as (n' & z' & A & B & C & D); auto.
      { now rewrite <- app_assoc. }
      exists n', (zeros ++ z'). split; [auto|]. split; [auto|]. split; [apply Forall_app; auto|]. rewrite D. now rewrite <- !app_assoc.
    + injection E as <- <-. cbn [cl_group cl_world w_trace owned].
      destruct p as [g|]; cbn [destroy_ptr owned] in *.
      * rewrite fold_destroy, replay_app, R.
        destruct (replay_close (map getSocketDescriptor g) now (live ++ zeros)) as (l & A & B & C); auto.
        { now rewrite <- app_assoc. }
        exists l, zeros. rewrite app_nil_r. auto.
      * exists now, zeros. auto.
    + destruct p as [g|]; [|discriminate]. destruct (reconfigureFilters _ _ _ _ _ _) as [[[r0 log]|]|]; try discriminate.
      injection E as <- <-. exists now, zeros. auto.
    + destruct p as [g|]; [|discriminate]. injection E as E. apply bind_ret_inv in E. destruct E as ([[[g' r0] ct] sent] & W & E).
      injection E as <- <-. exists now, zeros. cbn [cl_group cl_world owned] in *. apply group_write_fds in W. rewrite W. auto.
    + destruct p as [g|]; [|discriminate]. injection E as E. apply bind_ret_inv in E. destruct E as ([[[g' r0] ct] fr] & W & E).
      injection E as <- <-. exists now, zeros. cbn [cl_group cl_world owned] in *. apply group_read_fds in W. rewrite W. auto.
Qed.

Lemma zeros_none : forall (live zeros rest now : list Z), In 0 live -> Forall (eq 0) zeros -> NoDup now ->
  Permutation now (live ++ zeros ++ rest) -> zeros = [].
Proof.
  intros live zeros rest now I F N P. destruct zeros as [|z zeros]; [reflexivity|]. inversion F; subst. exfalso.
  rewrite P in N. apply NoDup_remove_2 in N. apply N. apply in_or_app. now left.
Qed.

Lemma history_nodup : forall live m h c g, NoDup live -> history live m h c -> cl_group c = Some g -> NoDup (descriptors g).
Proof.
  intros live m h c g ND H G. destruct (history_sockets live m h c ND H) as (now & zeros & _ & N & _ & P).
  rewrite P, G in N. cbn [owned] in N. rewrite app_assoc in N. unfold descriptors.
  clear -N. induction (live ++ zeros) as [|x l IH]; [exact N|]. cbn in N. inversion N; auto.
Qed.

(** ** Filters *)
Lemma kconv_passes : forall fs, Forall id_mask fs -> forall w, not_error w ->
  (kernel_passes (map kconv fs) w = true <-> is_extended w = true /\ Exists (selected w) fs).
Proof.
  intros fs M w W. destruct fs as [|f fs].
  - cbn. split; [discriminate|intros [_ E]; inversion E].
  - set (l := f :: fs) in *.
    unfold kernel_passes. rewrite existsb_exists, Exists_exists. rewrite Forall_forall in M.
    assert (R : forall f, In f l -> 0 <= flt_mask f < 2 ^ 32) by (intros x I; specialize (M x I); unfold id_mask in M; lia).
    split.
    + intros [e [I Q]]. rewrite in_map_iff in I. destruct I as [x [<- I]].
      apply entry_iff in Q; [|auto|now apply R]. destruct Q as [X [Q _]]. split; auto. exists x. split; auto.
    + intros [X [x [I Q]]]. exists (kconv x). split; [now apply in_map|]. apply entry_iff; [auto|now apply R|].
      split; [auto|split; [auto|split]]; [|intros H30; exfalso; revert H30]; rewrite id_mask_high by (auto; lia); congruence.
Qed.

Lemma configure_null_zero : forall ans fd log, configureFilters ans fd None 0 log = configureFilters ans fd (Some []) 0 log.
Proof. reflexivity. Qed.

Lemma start_loop_null_zero : forall m kernel fuel i t acc w,
  start_loop fuel i t m None 0 kernel acc w = start_loop fuel i t m (Some []) 0 kernel acc w.
Proof.
  intros m kernel. induction fuel as [|k IH]; intros i t acc w; [reflexivity|]. cbn [start_loop].
  destruct (i <? _); [|reflexivity]. destruct (nth_error _ _); [|reflexivity].
  change (createInterface m i s None 0 (kernel t (w_trace w)) w) with (createInterface m i s (Some []) 0 (kernel t (w_trace w)) w).
  destruct (createInterface _ _ _ _ _ _ _) as [[[r o] w']|]; [apply IH|reflexivity].
Qed.

Lemma reconfigure_null_zero : forall g ans fuel i t log,
  reconfigure_loop fuel i t g ans None 0 log = reconfigure_loop fuel i t g ans (Some []) 0 log.
Proof.
  intros g ans. induction fuel as [|k IH]; intros i t log; [reflexivity|]. cbn [reconfigure_loop].
  destruct (i <? _); [|reflexivity]. destruct (nth_error _ _) as [s|]; [|reflexivity]. rewrite configure_null_zero.
  destruct (configureFilters _ _ _ _ _) as [[r log']|]; [|reflexivity]. destruct (result_not r); [reflexivity|apply IH].
Qed.

(** With a null array that is not empty no interface comes up, and no filter is installed. *)
Lemma start_loop_null : forall m kernel num, (num <> 0)%nat -> Z.of_nat num <= 512 -> forall fuel i t w acc' w',
  start_loop fuel i t m None num kernel [] w = Some (Ret (acc', w')) -> acc' = [] /\ w_filters w' = w_filters w.
Proof.
  intros m kernel num N0 N1. induction fuel as [|k IH]; intros i t w acc' w' E; [discriminate|]. cbn [start_loop] in E.
  destruct (i <? _); [|injection E as <- <-; auto]. destruct (nth_error _ _) as [name|]; [|discriminate].
  destruct (createInterface m i name None num (kernel t (w_trace w)) w) as [[[r o] w1]|] eqn:C; [|discriminate].
  assert (Q : o = None /\ w_filters w1 = w_filters w).
  { unfold createInterface in C. destruct (openSocket _ _ _ _ _) as [fd tr]. destruct (fd <=? 0).
    - injection C as <- <- <-. auto.
    - unfold configureFilters in C. destruct (Nat.eqb_spec num 0); [contradiction|]. cbn [negb andb] in C.
      unfold CAN_RAW_FILTER_MAX in C. destruct (Z.leb_spec (Z.of_nat num) 512); [|lia]. cbn [bind] in C.
      change (result_not BadArgument) with true in C. cbn iota in C. injection C as <- <- <-. auto. }
  destruct Q as [-> Q]. apply IH in E. destruct E as [-> E]. split; auto. congruence.
Qed.

(** A started group has the filters asked for; a start that fails changes no filter. *)
Lemma start_loop_extends : forall m configs n kernel fuel i t acc w acc' w',
  start_loop fuel i t m configs n kernel acc w = Some (Ret (acc', w')) -> exists g, acc' = acc ++ g.
Proof.
  intros m configs n kernel. induction fuel as [|k IH]; intros i t acc w acc' w' E; [discriminate|]. cbn [start_loop] in E.
  destruct (i <? _); [|injection E as <- <-; exists []; now rewrite app_nil_r]. destruct (nth_error _ _) as [name|]; [|discriminate].
  destruct (createInterface _ _ _ _ _ _ _) as [[[r o] w1]|]; [|discriminate]. apply IH in E. destruct E as [g ->].
  destruct o as [s|]; [destruct (negb _)|]; try (exists g; reflexivity). exists (s :: g). now rewrite <- app_assoc.
Qed.

Lemma start_loop_no_group : forall m configs n kernel fuel i t acc w acc' w',
  start_loop fuel i t m configs n kernel acc w = Some (Ret (acc', w')) -> acc' = [] -> w_filters w' = w_filters w.
Proof.
  intros m configs n kernel. induction fuel as [|k IH]; intros i t acc w acc' w' E Z; [discriminate|]. cbn [start_loop] in E.
  destruct (i <? _); [|injection E as <- <-; auto]. destruct (nth_error _ _) as [name|]; [|discriminate].
  destruct (createInterface m i name configs n (kernel t (w_trace w)) w) as [[[r o] w1]|] eqn:C; [|discriminate].
  assert (Q : (o = None -> w_filters w1 = w_filters w) /\ (o <> None -> r = Success)).
  { unfold createInterface in C. destruct (openSocket _ _ _ _ _) as [fd tr]. destruct (fd <=? 0).
    - injection C as <- <- <-. split; [auto|congruence].
    - apply bind_ret_inv in C. destruct C as ([r1 log] & C1 & C). destruct (result_not r1) eqn:RN; injection C as <- <- <-.
      + split; [|congruence]. intros _. cbn [w_filters]. eapply configure_refused; eauto.
      + split; [discriminate|auto]. }
  destruct Q as [Q1 Q2]. destruct o as [s|].
  - exfalso. rewrite Q2 in E by discriminate. change (negb (result_not Success)) with true in E. cbn iota in E.
    apply start_loop_extends in E. destruct E as [g A]. rewrite Z in A.
    symmetry in A. apply app_eq_nil in A. destruct A as [A _]. apply app_eq_nil in A. destruct A; discriminate.
  - rewrite <- Q1 by auto. eapply IH; eauto.
Qed.

Lemma start_failed : forall fuel m configs num kernel out w r out' w',
  startInterfaceGroup fuel m configs num kernel out w = Some (Ret (r, out', w')) -> isSuccess r = false ->
  out' = out /\ w_filters w' = w_filters w.
Proof.
  intros fuel m configs num kernel out w r out' w' E R. unfold startInterfaceGroup in E.
  destruct (start_loop _ _ _ _ _ _ _ _ _) as [[[g' w1]|]|] eqn:Q; try discriminate.
  destruct g' as [|s0 g']; injection E as <- <- <-.
  - split; auto. eapply start_loop_no_group; eauto.
  - destruct (_ <=? _) in R; discriminate.
Qed.

Lemma start_filters : forall fuel m configs num kernel out w r out' w', configs_ok configs num -> Z.of_nat num < 2 ^ 29 ->
  startInterfaceGroup fuel m configs num kernel out w = Some (Ret (r, out', w')) ->
  isSuccess r = true -> forall g s, out' = Some g -> In s g ->
  filters_of (getSocketDescriptor s) (w_filters w') = Some (map kconv (asked configs num)).
Proof.
  intros fuel m configs num kernel out w r out' w' OK N E R g s O I. unfold startInterfaceGroup in E.
  destruct (start_loop _ _ _ _ _ _ _ _ _) as [[[g' w1]|]|] eqn:Q; try discriminate.
  assert (K : forall s, In s g' -> filters_of (getSocketDescriptor s) (w_filters w1) = Some (map kconv (asked configs num))).
  { assert (S : forall cs, (num <= length cs)%nat -> start_loop fuel 0 0 m (Some cs) num kernel [] w = Some (Ret (g', w1)) ->
       forall s, In s g' -> filters_of (getSocketDescriptor s) (w_filters w1) = Some (map kconv (firstn num cs))).
    { intros cs L X. apply start_loop_filters in X; auto. destruct X as (news & g'' & F1 & F2 & F3 & F4). cbn [app] in F3. subst g''.
      intros s1 I1. rewrite F1. apply filters_of_news; auto. }
    destruct configs as [cs|]; cbn [configs_ok asked] in *; [auto|].
    destruct (Nat.eq_dec num 0) as [->|NZ].
    - rewrite start_loop_null_zero in Q. exact (S [] (le_n 0) Q).
    - apply start_loop_null in Q; auto. destruct Q as [-> _]. intros x []. }
  destruct g' as [|s0 g']; injection E as <- <- <-; [discriminate|]. injection O as <-. cbn [w_filters]. auto.
Qed.

Lemma reconfigure_filters : forall fuel g ans configs num log r log', group_ok g -> NoDup (descriptors g) -> configs_ok configs num ->
  Z.of_nat num < 2 ^ 29 -> reconfigureFilters fuel g ans configs num log = Some (Ret (r, log')) -> isSuccess r = true ->
  forall s, In s g -> filters_of (getSocketDescriptor s) log' = Some (map kconv (asked configs num)).
Proof.
  intros fuel g ans configs num log r log' [L _] ND OK N E R s I.
  assert (S : forall cs, (num <= length cs)%nat -> reconfigureFilters fuel g ans (Some cs) num log = Some (Ret (r, log')) ->
     filters_of (getSocketDescriptor s) log' = Some (map kconv (firstn num cs))).
  { intros cs LC X. destruct (reconfigure_spec g ans cs num log L LC N ND) as (r2 & log2 & j & E2 & J & A & B & C & _).
    pose proof (reconfigure_mono _ _ _ _ _ _ _ _ _ X (fuel + S (length g))%nat ltac:(lia)) as X'.
    unfold reconfigureFilters in E2. rewrite E2 in X' by lia. injection X' as -> ->.
    destruct B as [[-> _]|(s' & _ & F & _)]; [|destruct r; discriminate].
    apply In_nth_error in I. destruct I as [t T].
    assert (TL : (t < length g)%nat) by (apply nth_error_Some; congruence).
    destruct (A t s log T TL) as (lg' & CF). rewrite (C t s T TL log lg' CF).
    rewrite configure_cases in CF by auto. destruct (_ =? 0) in CF; [|discriminate]. injection CF as <-. cbn [filters_of].
    now rewrite Z.eqb_refl. }
  destruct configs as [cs|]; cbn [configs_ok asked] in *; [auto|].
  destruct (Nat.eq_dec num 0) as [->|NZ].
  - unfold reconfigureFilters in *. rewrite reconfigure_null_zero in E. apply (S []); auto.
  - assert (g <> []) by (intros ->; destruct I). rewrite reconfigure_null in E; auto; [|lia|destruct fuel; [discriminate|lia]].
    injection E as <- <-. discriminate.
Qed.

Lemma in_fds : forall g g' s, map getSocketDescriptor g' = map getSocketDescriptor g -> In s g' ->
  exists s0, In s0 g /\ getSocketDescriptor s0 = getSocketDescriptor s.
Proof.
  intros g g' s E I. apply (in_map getSocketDescriptor) in I. rewrite E in I. apply in_map_iff in I.
  destruct I as (s0 & A & B). eauto.
Qed.

Lemma asked_bound : forall configs num b, configs_ok configs num -> Z.of_nat (length (asked configs num)) < b -> 2 ^ 29 <= b ->
  Z.of_nat num < b.
Proof.
  intros [cs|] num b OK N B; cbn [configs_ok asked] in *.
  - rewrite firstn_length_le in N; auto.
  - lia.
Qed.

Lemma history_filters : forall live m h c fs g s, (length (m_required m) <= 255)%nat -> NoDup live -> history live m h c ->
  in_force h = Some fs -> Z.of_nat (length fs) < 2 ^ 29 -> cl_group c = Some g -> In s g ->
  filters_of (getSocketDescriptor s) (w_filters (cl_world c)) = Some (map kconv fs).
Proof.
  intros live m h c fs g s LEN ND H. revert g s. induction H as [|h c o fuel r c' H IH LG E]; intros g s F B G I; [discriminate|].
  pose proof (history_ok live m h c LEN H) as CO. pose proof (fun g => history_nodup live m h c g ND H) as HN.
  destruct c as [p w]. unfold client_ok in CO. destruct o; cbn [perform legal cl_group cl_world] in *.
  - destruct LG as [OK FR]. destruct (startInterfaceGroup _ _ _ _ _ _ _) as [[[[r0 p'] w']|]|] eqn:S; try discriminate.
    injection E as <- <-. cbn [cl_group cl_world in_force] in *.
    destruct (isSuccess r0) eqn:R0.
    + injection F as <-. assert (N := asked_bound configs num (2 ^ 29) OK B ltac:(lia)).
      eapply start_filters; eauto.
    + apply start_failed in S; auto. destruct S as [-> ->]. eauto.
  - discriminate.
  - destruct LG as [_ OK]. destruct p as [g0|]; [|discriminate].
    destruct (reconfigureFilters _ _ _ _ _ _) as [[[r0 log]|]|] eqn:S; try discriminate.
    injection E as <- <-. cbn [cl_group cl_world in_force w_filters] in *. injection G as <-.
    destruct (isSuccess r0) eqn:R0; [|discriminate]. injection F as <-.
    assert (N := asked_bound configs num (2 ^ 29) OK B ltac:(lia)). eapply reconfigure_filters; eauto.
  - destruct p as [g0|]; [|discriminate]. injection E as E. apply bind_ret_inv in E. destruct E as ([[[g' r0] ct] sent] & W & E).
    injection E as <- <-. cbn [cl_group cl_world in_force] in *. injection G as <-. apply group_write_fds in W.
    destruct (in_fds _ _ _ W I) as (s0 & I0 & <-). eauto.
  - destruct p as [g0|]; [|discriminate]. injection E as E. apply bind_ret_inv in E. destruct E as ([[[g' r0] ct] fr] & W & E).
    injection E as <- <-. cbn [cl_group cl_world in_force] in *. injection G as <-. apply group_read_fds in W.
    destruct (in_fds _ _ _ W I) as (s0 & I0 & <-). eauto.
Qed.

(** ** Reading *)
Lemma history_read : forall live m h c fs fuel res errno msgs i out r count frames c' g s,
  (length (m_required m) <= 255)%nat -> NoDup live -> history live m h c ->
  in_force h = Some fs -> Forall id_mask fs -> Z.of_nat (length fs) < 2 ^ 29 ->
  cl_group c = Some g -> nth_error g (Z.to_nat i) = Some s -> legal live (Read res errno msgs i out) c ->
  (forall k, In k msgs -> is_error (km_id k) = false ->
     exists kfs, filters_of (getSocketDescriptor s) (w_filters (cl_world c)) = Some kfs /\ kernel_passes kfs (km_id k) = true) ->
  perform fuel m (Read res errno msgs i out) c = Some (Ret (WasRead r count frames, c')) ->
  Forall (fun f => is_extended (fid f) = true /\ Exists (selected (fid f)) fs) (firstn (Z.to_nat count) frames).
Proof.
  intros live m h c fs fuel res errno msgs i out r count frames c' g s LEN ND H IF IM B G NE LG K E.
  pose proof (history_ok live m h c LEN H) as CO. destruct c as [p w]. unfold client_ok in CO.
  cbn [cl_group cl_world perform legal] in *. subst p. destruct CO as [L T]. destruct LG as (_ & I & F & RO).
  injection E as E. apply bind_ret_inv in E. destruct E as ([[[g' r0] ct] fr] & W & E). injection E as <- <- <- <-.
  unfold group_read in W. assert (LI : (Z.to_nat i < length g)%nat) by (apply nth_error_Some; congruence).
  destruct (Z.leb_spec (Z.of_nat (length g)) i); [lia|]. rewrite NE in W.
  assert (TS : iface_typed s) by (rewrite Forall_forall in T; apply T; eapply nth_error_In; eauto).
  apply bind_ret_inv in W. destruct W as (rd & RD & W). injection W as <- <- <- <-. rewrite Nat2Z.id.
  assert (FI : filters_of (getSocketDescriptor s) (w_filters w) = Some (map kconv fs)).
  { apply (history_filters live m h (Client (Some g) w) fs g s); auto. eapply nth_error_In; eauto. }
  destruct (Z.ltb_spec 0 res) as [P|P].
  - destruct (read_positive res errno msgs s out TS F RO P) as (rd' & RD' & _ & _ & _ & _ & D & _).
    assert (rd' = rd) by congruence. subst rd'. clear RD RD'.
    set (good := List.filter _ msgs) in D.
    assert (GD : Forall (fun k => is_extended (km_id k) = true /\ Exists (selected (km_id k)) fs) good).
    { apply Forall_forall. intros k KI. apply filter_In in KI. destruct KI as [KI KA].
      apply andb_true_iff in KA. destruct KA as [KE _]. apply negb_true_iff in KE.
      destruct (K k KI KE) as (kfs & A1 & A2). assert (kfs = map kconv fs) by congruence. subst kfs.
      apply kconv_passes in A2; auto. split; auto. destruct RO as (_ & TM & _). rewrite Forall_forall in TM.
      destruct (TM k KI) as [R _]. exact R. }
    clear -D GD. induction D as [|k f good fr [Q _] D IH]; [constructor|]. inversion GD; subst. constructor; auto. now rewrite Q.
  - destruct (read_negative res errno msgs s out P) as (rd' & RD' & RC & _).
    assert (rd' = rd) by congruence. subst rd'. rewrite RC. constructor.
Qed.
