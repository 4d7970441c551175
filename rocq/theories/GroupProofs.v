(** Proofs about interface groups. *)
From Coq Require Import ZArith Bool String List Lia.
From Verif Require Import Outcome ResultModel CInt SatMathSpec SatMathModel SatMathProofs TimeModel CanFrameModel CanFrameProofs
  SocketCanModel SocketCanSpec SocketCanProofs GroupModel GroupSpec.
Import ListNotations.
Open Scope Z_scope.

(** ** configureFilters *)

Definition kconv (fc : filter) : kfilter :=
  KFilter (Z.lor (Z.land (flt_id fc) MaskExtID) CAN_EFF_FLAG) (Z.lor (flt_mask fc) CAN_EFF_FLAG).

Lemma convert_eq : forall n cs, (n <= length cs)%nat -> convert_filters n cs = Ret (map kconv (firstn n cs)).
Proof.
  induction n; intros cs L; [reflexivity|]. destruct cs as [|c cs]; cbn [length] in L; [lia|].
  cbn [convert_filters]. rewrite IHn by lia. reflexivity.
Qed.
Lemma convert_oob : forall n cs, (length cs < n)%nat -> convert_filters n cs = UB.
Proof.
  induction n; intros cs L; [lia|]. destruct cs as [|c cs]; [reflexivity|]. cbn [length] in L.
  cbn [convert_filters]. rewrite IHn by lia. reflexivity.
Qed.

Lemma configure_eq : forall ans fd cs n log, (1 <= n <= length cs)%nat ->
  configureFilters ans fd (Some cs) n log =
  let fs := map kconv (firstn n cs) in
  let optlen := (8 * Z.of_nat n) mod 2 ^ 32 in
  if ans fs optlen =? 0 then Ret (Success, (fd, firstn (Z.to_nat (optlen / 8)) fs) :: log) else Ret (UnknownInternalError, log).
Proof.
  intros ans fd cs n log [L1 L2]. unfold configureFilters. cbn [andb].
  destruct (Nat.eqb_spec n 0); [lia|]. rewrite convert_eq by auto. cbn [bind].
  rewrite map_length, firstn_length_le by auto. unfold sizeof_can_filter, install. cbn zeta.
  destruct (_ =? 0); reflexivity.
Qed.

Lemma configure_zero : forall ans fd configs log,
  configureFilters ans fd configs 0 log =
  if ans [] 0 =? 0 then Ret (Success, (fd, []) :: log) else Ret (UnknownInternalError, log).
Proof.
  intros. unfold configureFilters. cbn [Nat.eqb negb andb]. rewrite andb_false_r. cbn [andb].
  destruct (_ =? 0); reflexivity.
Qed.

Lemma land_eq_bits : forall a b m, 0 <= m < 2 ^ 32 ->
  (Z.land a m = Z.land b m <-> forall k, 0 <= k < 32 -> Z.testbit m k = true -> Z.testbit a k = Z.testbit b k).
Proof.
  intros a b m M. split.
  - intros E k K T. apply (f_equal (fun z => Z.testbit z k)) in E. rewrite !Z.land_spec, T, !andb_true_r in E. exact E.
  - intros H. apply Z.bits_inj'. intros k K. rewrite !Z.land_spec. destruct (Z.testbit m k) eqn:T; [|now rewrite !andb_false_r].
    rewrite !andb_true_r. apply H; auto. split; [lia|]. destruct (Z_lt_ge_dec k 32); [lia|].
    exfalso. rewrite <- (Z.mod_small m (2 ^ 32)) in T by lia. rewrite Z.mod_pow2_bits_high in T by lia. discriminate.
Qed.

Lemma lor_EFF_range : forall m, 0 <= m < 2 ^ 32 -> 0 <= Z.lor m CAN_EFF_FLAG < 2 ^ 32.
Proof.
  intros m M. assert (0 <= Z.lor m CAN_EFF_FLAG) by (apply Z.lor_nonneg; unfold CAN_EFF_FLAG; lia). split; auto.
  destruct (Z.eq_dec (Z.lor m CAN_EFF_FLAG) 0) as [->|]; [lia|].
  apply Z.log2_lt_pow2; [lia|]. rewrite Z.log2_lor by (unfold CAN_EFF_FLAG; lia).
  apply Z.max_lub_lt; [|reflexivity]. destruct (Z.eq_dec m 0) as [->|]; [reflexivity|]. apply Z.log2_lt_pow2; lia.
Qed.

Lemma EFF_testbit : forall k, 0 <= k -> Z.testbit CAN_EFF_FLAG k = (k =? 31).
Proof. intros. change CAN_EFF_FLAG with (2 ^ 31). rewrite Z.pow2_bits_eqb by lia. apply Z.eqb_sym. Qed.

(** The kernel's verdict on one configured entry. *)
Lemma entry_iff : forall w f, not_error w -> 0 <= flt_mask f < 2 ^ 32 ->
  (entry_matches w (kconv f) = true <->
   is_extended w = true /\ selected w f /\ Z.testbit (flt_mask f) 29 = false /\
   (Z.testbit (flt_mask f) 30 = true -> is_remote w = false)).
Proof.
  intros w f [W NE] M. unfold entry_matches, kconv. cbn [kf_id kf_mask].
  assert (I : forall k, 0 <= k -> Z.testbit (Z.lor (Z.land (flt_id f) MaskExtID) CAN_EFF_FLAG) k =
    if k =? 31 then true else (k <? 29) && Z.testbit (flt_id f) k).
  { intros k K. rewrite Z.lor_comm. now apply EFF_bits. }
  assert (B : forall k, 0 <= k -> Z.testbit (Z.lor (flt_mask f) CAN_EFF_FLAG) k = Z.testbit (flt_mask f) k || (k =? 31)).
  { intros k K. now rewrite Z.lor_spec, EFF_testbit. }
  rewrite (B 29) by lia. rewrite (I 29) by lia. change (29 =? 31) with false. change (29 <? 29) with false. cbn [andb].
  rewrite orb_false_r. cbn iota.
  destruct (Z.testbit (flt_mask f) 29) eqn:E29; [split; [discriminate|intros (_ & _ & ? & _); discriminate]|].
  rewrite Z.eqb_eq, land_eq_bits by now apply lor_EFF_range. unfold is_extended, is_remote, is_error in *. split.
  - intros H. split; [|split; [|split; [reflexivity|]]].
    + rewrite (H 31), I by (rewrite ?B by lia; try lia; rewrite orb_true_r; auto). reflexivity.
    + intros k K T. rewrite (H k) by (rewrite ?B, ?T by lia; lia || reflexivity). rewrite I by lia.
      destruct (Z.eqb_spec k 31); [lia|]. destruct (Z.ltb_spec k 29); [reflexivity|lia].
    + intros T. rewrite (H 30) by (rewrite ?B, ?T by lia; lia || reflexivity). rewrite I by lia. reflexivity.
  - intros (X & S & _ & R) k K T. rewrite B in T by lia. rewrite I by lia.
    destruct (Z.eqb_spec k 31) as [->|N31]; [assumption|]. rewrite orb_false_r in T.
    destruct (Z.ltb_spec k 29); [apply S; auto; lia|]. cbn [andb].
    destruct (Z.eq_dec k 29) as [->|]; [congruence|]. assert (k = 30) as -> by lia. now apply R.
Qed.

Lemma configure_success : forall ans fd configs n log log', (1 <= n)%nat -> Z.of_nat n < 2 ^ 29 ->
  configureFilters ans fd configs n log = Ret (Success, log') ->
  exists cs, configs = Some cs /\ (n <= length cs)%nat /\ log' = (fd, map kconv (firstn n cs)) :: log.
Proof.
  intros ans fd configs n log log' N1 N2 E. destruct configs as [cs|].
  - exists cs. split; [reflexivity|].
    assert (L : (n <= length cs)%nat).
    { destruct (Compare_dec.le_lt_dec n (length cs)); auto. unfold configureFilters in E. cbn [andb] in E.
      destruct (Nat.eqb_spec n 0); [lia|]. rewrite convert_oob in E by auto. discriminate. }
    split; auto. rewrite configure_eq in E by lia. cbn zeta in E.
    assert (O : (8 * Z.of_nat n) mod 2 ^ 32 = 8 * Z.of_nat n) by (apply Z.mod_small; lia). rewrite O in E.
    destruct (_ =? 0) in E; [|injection E; discriminate].
    match type of E with Ret (_, ?l) = _ => assert (log' = l) as -> by congruence end. clear E.
    rewrite (Z.mul_comm 8 (Z.of_nat n)), Z.div_mul, Nat2Z.id by lia.
    rewrite firstn_all2; [reflexivity|]. rewrite map_length. apply firstn_le_length.
  - unfold configureFilters in E. destruct (Nat.eqb_spec n 0); [lia|]. cbn [negb andb] in E.
    destruct (_ <=? _) in E; [injection E; discriminate|discriminate].
Qed.

Lemma configured_passes : forall ans fd cs n log log', (1 <= n)%nat -> Z.of_nat n < 2 ^ 29 ->
  Forall filter_typed cs -> configureFilters ans fd (Some cs) n log = Ret (Success, log') ->
  exists fs, filters_of fd log' = Some fs /\ length fs = n /\
    (forall w, not_error w -> (kernel_passes fs w = true <-> is_extended w = true /\
       Exists (fun f => selected w f /\ Z.testbit (flt_mask f) 29 = false /\
                        (Z.testbit (flt_mask f) 30 = true -> is_remote w = false)) (firstn n cs))) /\
    forall fd', fd' <> fd -> filters_of fd' log' = filters_of fd' log.
Proof.
  intros ans fd cs n log log' N1 N2 T E. apply configure_success in E; auto. destruct E as [cs' [[= <-] [L ->]]].
  exists (map kconv (firstn n cs)). cbn [filters_of]. rewrite Z.eqb_refl. split; [reflexivity|].
  split; [now rewrite map_length, firstn_length_le|]. split.
  - intros w W. unfold kernel_passes. rewrite existsb_exists, Exists_exists.
    assert (T' : Forall filter_typed (firstn n cs)) by now apply Forall_firstn. rewrite Forall_forall in T'. split.
    + intros [e [I M]]. rewrite in_map_iff in I. destruct I as [f [<- I]].
      apply entry_iff in M; [|auto|apply T', I]. destruct M as [X M]. split; auto. exists f. split; auto.
    + intros [X [f [I M]]]. exists (kconv f). split; [now apply in_map|]. apply entry_iff; auto. apply T', I.
  - intros fd' F. destruct (Z.eqb_spec fd' fd); [contradiction|reflexivity].
Qed.

Lemma id_mask_high : forall f k, id_mask f -> 29 <= k -> Z.testbit (flt_mask f) k = false.
Proof.
  intros f k M K. unfold id_mask in M. rewrite <- (Z.mod_small (flt_mask f) (2 ^ 29)) by lia.
  apply Z.mod_pow2_bits_high. lia.
Qed.

Lemma configured_passes_ids : forall ans fd cs n log log', (1 <= n)%nat -> Z.of_nat n < 2 ^ 29 ->
  Forall id_mask cs -> configureFilters ans fd (Some cs) n log = Ret (Success, log') ->
  exists fs, filters_of fd log' = Some fs /\
    (forall w, not_error w ->
       (kernel_passes fs w = true <-> is_extended w = true /\ Exists (selected w) (firstn n cs))) /\
    forall fd', fd' <> fd -> filters_of fd' log' = filters_of fd' log.
Proof.
  intros ans fd cs n log log' N1 N2 T E. apply configure_success in E; auto. destruct E as [cs' [[= <-] [L ->]]].
  exists (map kconv (firstn n cs)). cbn [filters_of]. rewrite Z.eqb_refl. split; [reflexivity|]. split.
  - intros w W. unfold kernel_passes. rewrite existsb_exists, Exists_exists.
    assert (T' : Forall id_mask (firstn n cs)) by now apply Forall_firstn. rewrite Forall_forall in T'.
    assert (R : forall f, In f (firstn n cs) -> 0 <= flt_mask f < 2 ^ 32) by (intros f I; specialize (T' f I); unfold id_mask in T'; lia).
    split.
    + intros [e [I M]]. rewrite in_map_iff in I. destruct I as [f [<- I]].
      apply entry_iff in M; [|auto|now apply R]. destruct M as [X [M _]]. split; auto. exists f. split; auto.
    + intros [X [f [I M]]]. exists (kconv f). split; [now apply in_map|]. apply entry_iff; [auto|now apply R|].
      split; [auto|split; [auto|split]]; [|intros H30; exfalso; revert H30]; rewrite id_mask_high by (auto; lia); congruence.
  - intros fd' F. destruct (Z.eqb_spec fd' fd); [contradiction|reflexivity].
Qed.

Lemma configure_empty : forall ans fd configs log, ans [] 0 = 0 ->
  exists log', configureFilters ans fd configs 0 log = Ret (Success, log') /\
    (exists fs, filters_of fd log' = Some fs /\ forall w, kernel_passes fs w = false) /\
    forall fd', fd' <> fd -> filters_of fd' log' = filters_of fd' log.
Proof.
  intros ans fd configs log A. exists ((fd, []) :: log). rewrite configure_zero, A. split; [reflexivity|].
  cbn [filters_of]. rewrite Z.eqb_refl. split; [now exists []|].
  intros fd' F. destruct (Z.eqb_spec fd' fd); [contradiction|reflexivity].
Qed.

Lemma configure_refused : forall ans fd configs n log r log',
  configureFilters ans fd configs n log = Ret (r, log') -> isFailure r = true -> log' = log.
Proof.
  intros ans fd configs n log r log' E F. unfold configureFilters in E.
  destruct (_ && _) in E; [now injection E|].
  destruct (n =? 0)%nat.
  - destruct (negb _) in E; injection E as <- <-; [reflexivity|discriminate].
  - destruct configs; [|discriminate]. apply bind_ret_inv in E. destruct E as [fs [_ E]].
    destruct (negb _) in E; injection E as <- <-; [reflexivity|discriminate].
Qed.

Lemma configure_results : forall fd cs n, (1 <= n <= length cs)%nat -> Z.of_nat n < 2 ^ 29 ->
  exists fs, length fs = n /\ forall ans log,
    (ans fs (8 * Z.of_nat n) = 0 -> configureFilters ans fd (Some cs) n log = Ret (Success, (fd, fs) :: log)) /\
    (ans fs (8 * Z.of_nat n) <> 0 -> configureFilters ans fd (Some cs) n log = Ret (UnknownInternalError, log)).
Proof.
  intros fd cs n L B. exists (map kconv (firstn n cs)). assert (LF : length (map kconv (firstn n cs)) = n).
  { rewrite map_length. apply firstn_length_le. lia. }
  split; [exact LF|]. intros ans log. rewrite configure_eq by auto. cbn zeta. rewrite Z.mod_small by lia.
  replace (8 * Z.of_nat n / 8) with (Z.of_nat n) by (rewrite Z.mul_comm, Z.div_mul; lia). rewrite Nat2Z.id.
  rewrite (firstn_all2 (map kconv (firstn n cs))) by (rewrite LF; lia).
  split; intros E; [rewrite (proj2 (Z.eqb_eq _ _) E)|rewrite (proj2 (Z.eqb_neq _ _) E)]; reflexivity.
Qed.

Lemma configure_null : forall ans fd n log, (n <> 0)%nat ->
  (configureFilters ans fd None n log = Ret (BadArgument, log) <-> Z.of_nat n <= 512) /\
  (configureFilters ans fd None n log = UB <-> 512 < Z.of_nat n).
Proof.
  intros ans fd n log N. unfold configureFilters. destruct (Nat.eqb_spec n 0); [contradiction|]. cbn [negb andb].
  unfold CAN_RAW_FILTER_MAX. destruct (Z.leb_spec (Z.of_nat n) 512); split; split; intros; try lia; try discriminate; reflexivity.
Qed.

Lemma configure_truncated : forall ans fd cs log n, Z.of_nat n = 2 ^ 29 -> (n <= length cs)%nat ->
  ans (map kconv (firstn n cs)) 0 = 0 ->
  exists log', configureFilters ans fd (Some cs) n log = Ret (Success, log') /\ filters_of fd log' = Some [].
Proof.
  intros ans fd cs log n N L A. exists ((fd, []) :: log). rewrite configure_eq by lia. rewrite N.
  change ((8 * 2 ^ 29) mod 2 ^ 32) with 0. cbn zeta. rewrite A. change (Z.to_nat (0 / 8)) with 0%nat.
  split; [reflexivity|]. cbn [filters_of]. now rewrite Z.eqb_refl.
Qed.

(** ** reconfigureFilters *)



(** What configuring the [t]-th interface does, given that the ones before succeeded: it does not depend on the log. *)
Lemma configure_cases : forall ans fd cs n log, (n <= length cs)%nat -> Z.of_nat n < 2 ^ 29 ->
  let fs := map kconv (firstn n cs) in
  configureFilters ans fd (Some cs) n log =
  if ans fs (8 * Z.of_nat n) =? 0 then Ret (Success, (fd, fs) :: log) else Ret (UnknownInternalError, log).
Proof.
  intros ans fd cs n log L N fs. destruct n.
  - rewrite configure_zero. reflexivity.
  - rewrite configure_eq by lia. cbn zeta. fold fs. rewrite Z.mod_small by lia.
    rewrite (Z.mul_comm 8 (Z.of_nat (S n))), Z.div_mul, Nat2Z.id by lia.
    rewrite (firstn_all2 fs); [reflexivity|]. unfold fs. rewrite map_length. apply firstn_le_length.
Qed.

(** The first index at which the kernel refuses, up to a limit. *)
Fixpoint refused_at (ok : nat -> bool) (n t : nat) : nat :=
  match n with O => t | S k => if ok t then refused_at ok k (S t) else t end.

Lemma refused_at_spec : forall ok n t,
  (t <= refused_at ok n t <= t + n)%nat /\
  (forall j, (t <= j < refused_at ok n t)%nat -> ok j = true) /\
  ((refused_at ok n t < t + n)%nat -> ok (refused_at ok n t) = false).
Proof.
  induction n; intros t; cbn [refused_at].
  - repeat split; intros; lia.
  - destruct (ok t) eqn:E.
    + destruct (IHn (S t)) as [A [B C]]. split; [lia|]. split.
      * intros j J. destruct (Nat.eq_dec j t) as [->|]; auto. apply B. lia.
      * intros H. apply C. lia.
    + repeat split; intros; try lia. assumption.
Qed.

Lemma reconfigure_loop_eq : forall cs n, (n <= length cs)%nat -> Z.of_nat n < 2 ^ 29 ->
  forall todo done ans log fuel, (length todo < fuel)%nat -> (length (done ++ todo) <= 255)%nat ->
  let fs := map kconv (firstn n cs) in
  let ok := fun t => ans t fs (8 * Z.of_nat n) =? 0 in
  let j := refused_at ok (length todo) (length done) in
  reconfigure_loop fuel (Z.of_nat (length done)) (length done) (done ++ todo) ans (Some cs) n log =
  Some (Ret (if (j =? length (done ++ todo))%nat then Success else UnknownInternalError,
    rev (map (fun d => (d, fs)) (firstn (j - length done) (descriptors todo))) ++ log)).
Proof.
  intros cs n L N. induction todo as [|s todo IH]; intros done ans log fuel F S fs ok j.
  - destruct fuel; [lia|]. cbn [reconfigure_loop]. rewrite app_nil_r in *. rewrite Z.ltb_irrefl.
    unfold j. cbn [refused_at length]. rewrite Nat.eqb_refl, firstn_nil. reflexivity.
  - destruct fuel as [|k]; [cbn [length] in F; lia|]. cbn [reconfigure_loop].
    assert (LL : length (done ++ s :: todo) = (length done + Datatypes.S (length todo))%nat) by (rewrite app_length; reflexivity).
    destruct (Z.ltb_spec (Z.of_nat (length done)) (Z.of_nat (length (done ++ s :: todo)))) as [_|Q]; [|lia].
    rewrite Nat2Z.id, nth_error_app2, Nat.sub_diag by lia. cbn [nth_error].
    rewrite configure_cases by auto. fold fs. unfold j. cbn [refused_at length]. fold (ok (length done)).
    change (ans (length done) fs (8 * Z.of_nat n) =? 0) with (ok (length done)).
    destruct (ok (length done)) eqn:E.
    + change (result_not Success) with false. cbn iota.
      rewrite Z.mod_small by lia. replace (Z.of_nat (length done) + 1) with (Z.of_nat (length (done ++ [s]))) by (rewrite app_length; cbn [length]; lia).
      replace (Datatypes.S (length done)) with (length (done ++ [s])) by (rewrite app_length; cbn [length]; lia).
      assert (AA : done ++ s :: todo = (done ++ [s]) ++ todo) by (rewrite <- app_assoc; reflexivity). rewrite AA.
      rewrite IH by (cbn [length] in F; rewrite <- ?AA; lia). fold fs. fold ok.
      destruct (refused_at_spec ok (length todo) (length (done ++ [s]))) as [R _].
      set (j' := refused_at ok (length todo) (length (done ++ [s]))) in *. rewrite app_length in R. cbn [length] in R.
      do 3 f_equal. rewrite app_length. cbn [length].
      replace (j' - length done)%nat with (Datatypes.S (j' - (length done + 1))) by lia.
      unfold descriptors. cbn [map]. rewrite firstn_cons. cbn [map rev]. rewrite <- app_assoc. reflexivity.
    + change (result_not UnknownInternalError) with true. cbn iota.
      rewrite LL, Nat.sub_diag. destruct (Nat.eqb_spec (length done) (length done + Datatypes.S (length todo))); [lia|].
      reflexivity.
Qed.

Lemma filters_of_log : forall fs ds fd log,
  filters_of fd (rev (map (fun d => (d, fs)) ds) ++ log) = if existsb (Z.eqb fd) ds then Some fs else filters_of fd log.
Proof.
  intros fs ds fd. induction ds as [|d ds IH]; intros log; [reflexivity|].
  cbn [map rev existsb]. rewrite <- app_assoc. rewrite IH. cbn [app filters_of].
  destruct (fd =? d), (existsb _ ds); reflexivity.
Qed.

Lemma existsb_firstn : forall (ds : list Z) j k d, NoDup ds -> nth_error ds k = Some d ->
  existsb (Z.eqb d) (firstn j ds) = (k <? j)%nat.
Proof.
  intros ds j k d ND E. destruct (Nat.ltb_spec k j) as [H|H].
  - apply existsb_exists. exists d. split; [|apply Z.eqb_refl]. rewrite <- (firstn_skipn j ds) in E.
    assert (K : (k < length ds)%nat) by (apply nth_error_Some; rewrite <- (firstn_skipn j ds); congruence).
    rewrite nth_error_app1 in E by (rewrite firstn_length; lia). now apply nth_error_In in E.
  - apply not_true_iff_false. rewrite existsb_exists. intros [x [I X]]. apply Z.eqb_eq in X. subst x.
    apply In_nth_error in I. destruct I as [m I].
    assert (M : (m < length (firstn j ds))%nat) by (apply nth_error_Some; congruence). rewrite firstn_length in M.
    assert (nth_error ds m = Some d).
    { rewrite <- (firstn_skipn j ds). rewrite nth_error_app1; auto. rewrite firstn_length. lia. }
    assert (m = k); [|lia]. apply (NoDup_nth_error ds); auto; [lia|congruence].
Qed.

(** The whole reconfiguration: [j] interfaces accepted. *)
Lemma reconfigure_spec : forall g ans cs n log, (length g <= 255)%nat -> (n <= length cs)%nat -> Z.of_nat n < 2 ^ 29 ->
  NoDup (descriptors g) ->
  exists r log' j,
    (forall fuel, (length g < fuel)%nat -> reconfigureFilters fuel g ans (Some cs) n log = Some (Ret (r, log'))) /\
    (j <= length g)%nat /\
    (forall t s lg, nth_error g t = Some s -> (t < j)%nat ->
       exists lg', configureFilters (ans t) (getSocketDescriptor s) (Some cs) n lg = Ret (Success, lg')) /\
    (j = length g /\ r = Success \/
     exists s, nth_error g j = Some s /\ isFailure r = true /\
       forall lg, configureFilters (ans j) (getSocketDescriptor s) (Some cs) n lg = Ret (r, lg)) /\
    (forall t s, nth_error g t = Some s -> (t < j)%nat -> forall lg lg',
       configureFilters (ans t) (getSocketDescriptor s) (Some cs) n lg = Ret (Success, lg') ->
       filters_of (getSocketDescriptor s) log' = filters_of (getSocketDescriptor s) lg') /\
    (forall fd, (forall t s, nth_error g t = Some s -> (t < j)%nat -> getSocketDescriptor s <> fd) ->
       filters_of fd log' = filters_of fd log).
Proof.
  intros g ans cs n log S L N ND.
  set (fs := map kconv (firstn n cs)). set (ok := fun t => ans t fs (8 * Z.of_nat n) =? 0).
  destruct (refused_at_spec ok (length g) 0) as [R1 [R2 R3]]. set (j := refused_at ok (length g) 0) in *.
  exists (if (j =? length g)%nat then Success else UnknownInternalError),
    (rev (map (fun d => (d, fs)) (firstn j (descriptors g))) ++ log), j.
  split; [|split; [lia|split; [|split; [|split]]]].
  - intros fuel F. unfold reconfigureFilters.
    pose proof (reconfigure_loop_eq cs n L N g [] ans log fuel F S) as Q. cbn zeta in Q. cbn [app length] in Q.
    rewrite Nat.sub_0_r in Q. exact Q.
  - intros t s lg E T. rewrite configure_cases by auto. fold fs.
    assert (O : ok t = true) by (apply R2; lia). unfold ok in O. rewrite O. eauto.
  - destruct (Nat.eqb_spec j (length g)) as [E|E]; [left; auto|right].
    destruct (nth_error g j) as [s|] eqn:G; [|apply nth_error_None in G; lia].
    exists s. split; [reflexivity|]. split; [reflexivity|]. intros lg. rewrite configure_cases by auto. fold fs.
    assert (O : ok j = false) by (apply R3; lia). unfold ok in O. rewrite O. reflexivity.
  - intros t s E T lg lg' C. rewrite configure_cases in C by auto. fold fs in C.
    destruct (_ =? 0) in C; [|injection C; discriminate]. injection C as <-.
    rewrite filters_of_log, (existsb_firstn _ j t) by (auto; unfold descriptors; now apply map_nth_error).
    destruct (Nat.ltb_spec t j); [|lia]. cbn [filters_of]. now rewrite Z.eqb_refl.
  - intros fd H. rewrite filters_of_log. destruct (existsb _ _) eqn:E; [|reflexivity]. exfalso.
    apply existsb_exists in E. destruct E as [x [I X]]. apply Z.eqb_eq in X. subst x.
    apply In_nth_error in I. destruct I as [m I].
    assert (M : (m < length (firstn j (descriptors g)))%nat) by (apply nth_error_Some; congruence).
    assert (D : nth_error (descriptors g) m = Some fd).
    { rewrite <- (firstn_skipn j (descriptors g)). rewrite nth_error_app1; auto. }
    rewrite firstn_length in M. unfold descriptors in D. rewrite nth_error_map in D.
    destruct (nth_error g m) as [s|] eqn:G; [|discriminate]. injection D as D. apply (H m s G); [lia|assumption].
Qed.

(** With 256 or more interfaces and no refusal the loop never ends. *)
Lemma reconfigure_diverges : forall g ans cs n, (256 <= length g)%nat -> (n <= length cs)%nat ->
  (forall t fs len, ans t fs len = 0) ->
  forall fuel i t log, 0 <= i < 256 -> reconfigure_loop fuel i t g ans (Some cs) n log = None.
Proof.
  intros g ans cs n G L A. induction fuel; intros i t log I; [reflexivity|]. cbn [reconfigure_loop].
  destruct (Z.ltb_spec i (Z.of_nat (length g))); [|lia].
  destruct (nth_error g (Z.to_nat i)) as [s|] eqn:E; [|apply nth_error_None in E; lia].
  assert (C : exists log', configureFilters (ans t) (getSocketDescriptor s) (Some cs) n log = Ret (Success, log')).
  { destruct n.
    - rewrite configure_zero, A. eexists. reflexivity.
    - rewrite configure_eq by lia. cbn zeta. rewrite A. eexists. reflexivity. }
  destruct C as [log' ->]. change (result_not Success) with false. cbn iota.
  apply IHfuel. apply Z.mod_pos_bound. lia.
Qed.

(** ** select *)

Lemma select_timeout : forall P, wf_platform P -> forall ppoll g t ignore, 0 < t < 2 ^ 63 ->
  exists r req, select P ppoll g t ignore = Ret (r, req) /\ pr_sec req = t / 1000000 /\ pr_nsec req = t mod 1000000.
Proof.
  intros P W ppoll g t ignore T. unfold select.
  assert (Q : Z.quot t 1000000 = t / 1000000) by (apply Z.quot_div_nonneg; lia). rewrite Q.
  pose proof (Z.div_mod t 1000000 ltac:(lia)) as DM. pose proof (Z.mod_pos_bound t 1000000 ltac:(lia)) as MB.
  assert (D : dur_sub P 64 t (t / 1000000 * 1000000) = Ret (t mod 1000000)).
  { unfold dur_sub. rewrite sub_s_partial; auto; try (unfold sin_range, smin, smax; change (64 - 1) with 63); try lia.
    f_equal. unfold sclamp, clamp, smin, smax. change (64 - 1) with 63.
    repeat match goal with |- context [?a <? ?b] => destruct (Z.ltb_spec a b) | |- context [?a <=? ?b] => destruct (Z.leb_spec a b) end; lia. }
  cbn zeta. rewrite D. cbn [bind].
  destruct (ppoll _) as [res rv]. destruct (res =? 0); [|destruct (res <? 0); [|destruct (existsb _ _)]];
    eexists; eexists; (split; [reflexivity|split; reflexivity]).
Qed.

Lemma select_zero_undefined : forall P, wf_platform P -> int_width P <= 64 -> abs_of_min P 64 = None -> forall ppoll g ignore,
  select P ppoll g 0 ignore = UB.
Proof.
  intros P W I A ppoll g ignore. unfold select. change (Z.quot 0 1000000 * 1000000) with 0. cbn zeta.
  unfold dur_sub. rewrite sub_s_undefined; auto; try lia. unfold sin_range, smin, smax. change (64 - 1) with 63. lia.
Qed.

Lemma has_trouble : forall rv, has rv (Z.lor POLLPRI (Z.lor POLLERR (Z.lor POLLHUP POLLNVAL))) = true <-> trouble rv.
Proof.
  intros rv. unfold has, trouble. rewrite negb_true_iff, Z.eqb_neq.
  change (Z.lor POLLPRI (Z.lor POLLERR (Z.lor POLLHUP POLLNVAL))) with 58.
  assert (B : forall k, 0 <= k -> Z.testbit (Z.land rv 58) k = Z.testbit rv k && ((k =? 1) || (k =? 3) || (k =? 4) || (k =? 5))).
  { intros k K. rewrite Z.land_spec. f_equal. destruct (Z_lt_ge_dec k 6).
    - assert (k = 0 \/ k = 1 \/ k = 2 \/ k = 3 \/ k = 4 \/ k = 5) by lia.
      repeat match goal with H : _ \/ _ |- _ => destruct H as [->|H]; [reflexivity|] end. subst. reflexivity.
    - change 58 with (58 mod 2 ^ 6). rewrite Z.mod_pow2_bits_high by lia. symmetry.
      repeat match goal with |- context [k =? ?c] => destruct (Z.eqb_spec k c); [lia|] end. reflexivity. }
  split.
  - intros N. destruct (Z.testbit rv 1) eqn:E1; [tauto|]. destruct (Z.testbit rv 3) eqn:E3; [tauto|].
    destruct (Z.testbit rv 4) eqn:E4; [tauto|]. destruct (Z.testbit rv 5) eqn:E5; [tauto|]. exfalso. apply N.
    apply Z.bits_inj'. intros k K. rewrite B, Z.bits_0 by lia.
    destruct (Z.eqb_spec k 1) as [->|]; [now rewrite E1|]. destruct (Z.eqb_spec k 3) as [->|]; [now rewrite E3|].
    destruct (Z.eqb_spec k 4) as [->|]; [now rewrite E4|]. destruct (Z.eqb_spec k 5) as [->|]; [now rewrite E5|].
    apply andb_false_r.
  - intros T Z0. assert (Z' : forall k, Z.testbit (Z.land rv 58) k = false) by (intros; rewrite Z0; apply Z.bits_0).
    destruct T as [T|[T|[T|T]]].
    + specialize (Z' 1). rewrite B, T in Z' by lia. discriminate.
    + specialize (Z' 3). rewrite B, T in Z' by lia. discriminate.
    + specialize (Z' 4). rewrite B, T in Z' by lia. discriminate.
    + specialize (Z' 5). rewrite B, T in Z' by lia. discriminate.
Qed.

Lemma select_classifies : forall P ppoll g t ignore r req, select P ppoll g t ignore = Ret (r, req) ->
  let res := fst (ppoll req) in
  let revents := snd (ppoll req) in
  length revents = length g ->
  (r = SuccessTimeout <-> res = 0) /\ (r = Failure <-> res < 0) /\
  (r = SuccessPartial <-> 0 < res /\ Exists trouble revents) /\
  (r = Success <-> 0 < res /\ ~ Exists trouble revents) /\
  map fst (pr_fds req) = descriptors g /\
  forall d ev, In (d, ev) (pr_fds req) -> Z.testbit ev 0 = true /\ Z.testbit ev 1 = true /\ Z.testbit ev 2 = negb ignore /\
    forall b, 2 < b -> Z.testbit ev b = false.
Proof.
  intros P ppoll g t ignore r req E res revents L. unfold select in E. cbn zeta in E.
  apply bind_ret_inv in E. destruct E as [nsec [_ E]].
  match type of E with context [ppoll ?q] => set (req' := q) in * end.
  assert (RQ : req = req').
  { destruct (ppoll req') as [a b]. destruct (a =? 0); [|destruct (a <? 0); [|destruct (existsb _ _)]]; now injection E. }
  assert (F : map fst (pr_fds req) = descriptors g /\
    forall d ev, In (d, ev) (pr_fds req) -> Z.testbit ev 0 = true /\ Z.testbit ev 1 = true /\ Z.testbit ev 2 = negb ignore /\
      forall b, 2 < b -> Z.testbit ev b = false).
  { rewrite RQ. unfold req'. cbn [pr_fds]. rewrite map_map. cbn [fst]. split; [reflexivity|].
    intros d ev I. apply in_map_iff in I. destruct I as [s [I _]]. injection I as _ <-.
    destruct ignore; (split; [reflexivity|split; [reflexivity|split; [reflexivity|]]]); intros b B;
      (apply Z.bits_above_log2; [discriminate|cbn; lia]). }
  assert (X : existsb (fun rv => has rv (Z.lor POLLPRI (Z.lor POLLERR (Z.lor POLLHUP POLLNVAL)))) revents = true <-> Exists trouble revents).
  { rewrite existsb_exists, Exists_exists. split; intros [x [I H]]; exists x; split; auto; now apply has_trouble. }
  subst req. subst res revents. clearbody req'. destruct (ppoll req') as [a b] eqn:PP. cbn [fst snd] in *.
  rewrite <- L, firstn_all in E.
  destruct (Z.eqb_spec a 0) as [A0|A0]; [|destruct (Z.ltb_spec a 0) as [A1|A1]; [|destruct (existsb _ b)]];
    injection E as <-; repeat split; intros; try apply F; try (eapply F; eassumption); try (eapply (proj2 F); eassumption); try lia; try discriminate; try reflexivity; try tauto;
    repeat match goal with H : _ /\ _ |- _ => destruct H | |- _ /\ _ => split end; try lia;
    first [exfalso; tauto | tauto | (rewrite <- X; discriminate) | (rewrite <- X in *; congruence)
          | intros Q; apply X in Q; discriminate | apply X; reflexivity | exfalso; apply X in H0; discriminate].
Qed.

(** ** Index-based calls *)

Lemma nth_error_replace_nth : forall A i (v : A) l j,
  nth_error (replace_nth i v l) j = if (j =? i)%nat then match nth_error l j with Some _ => Some v | None => None end else nth_error l j.
Proof.
  induction i; intros v [|h t] [|j]; cbn [replace_nth nth_error Nat.eqb]; try reflexivity.
  - destruct (_ =? _)%nat; reflexivity.
  - apply IHi.
Qed.

Lemma group_write_addressed : forall k g i s fs n c g' r c' sent, nth_error g (Z.to_nat i) = Some s -> 0 <= i ->
  group_write k g i fs n c = Ret (g', r, c', sent) ->
  exists w, write k s fs n = Ret w /\ r = wr_result w /\ c' = wr_count w /\ sent = wr_sent w /\
    nth_error g' (Z.to_nat i) = Some (wr_if w) /\ length g' = length g /\
    forall j, j <> Z.to_nat i -> nth_error g' j = nth_error g j.
Proof.
  intros k g i s fs n c g' r c' sent N I E. unfold group_write in E.
  assert (B : (Z.to_nat i < length g)%nat) by (apply nth_error_Some; congruence).
  destruct (Z.leb_spec (Z.of_nat (length g)) i); [lia|]. rewrite N in E.
  apply bind_ret_inv in E. destruct E as [w [W E]]. injection E as <- <- <- <-. exists w.
  repeat split; auto.
  - rewrite nth_error_replace_nth. destruct (Nat.eqb_spec (Z.to_nat i) (Z.to_nat i)); [|congruence]. now rewrite N.
  - apply replace_nth_length.
  - intros j J. rewrite nth_error_replace_nth. destruct (Nat.eqb_spec j (Z.to_nat i)); [contradiction|reflexivity].
Qed.

Lemma group_read_addressed : forall res errno msgs g i s out c g' r c' fs, nth_error g (Z.to_nat i) = Some s -> 0 <= i ->
  group_read res errno msgs g i out c = Ret (g', r, c', fs) ->
  exists rd, read res errno msgs s out = Ret rd /\ r = rd_result rd /\ c' = Z.of_nat (rd_count rd) /\ fs = rd_frames rd /\
    nth_error g' (Z.to_nat i) = Some (rd_if rd) /\ length g' = length g /\
    forall j, j <> Z.to_nat i -> nth_error g' j = nth_error g j.
Proof.
  intros res errno msgs g i s out c g' r c' fs N I E. unfold group_read in E.
  assert (B : (Z.to_nat i < length g)%nat) by (apply nth_error_Some; congruence).
  destruct (Z.leb_spec (Z.of_nat (length g)) i); [lia|]. rewrite N in E.
  apply bind_ret_inv in E. destruct E as [w [W E]]. injection E as <- <- <- <-. exists w.
  repeat split; auto.
  - rewrite nth_error_replace_nth. destruct (Nat.eqb_spec (Z.to_nat i) (Z.to_nat i)); [|congruence]. now rewrite N.
  - apply replace_nth_length.
  - intros j J. rewrite nth_error_replace_nth. destruct (Nat.eqb_spec j (Z.to_nat i)); [contradiction|reflexivity].
Qed.

Lemma group_bad_index : forall g i, Z.of_nat (length g) <= i ->
  (forall k fs n c, group_write k g i fs n c = Ret (g, BadArgument, c, None)) /\
  (forall res errno msgs out c, group_read res errno msgs g i out c = Ret (g, BadArgument, c, out)) /\
  group_getInterface g i = None /\ group_getInterfaceName g i = "<bad index>"%string.
Proof.
  intros g i H. unfold group_write, group_read, group_getInterface, group_getInterfaceName.
  destruct (Z.leb_spec (Z.of_nat (length g)) i); [|lia]. repeat split; reflexivity.
Qed.

Lemma group_good_index : forall g i, 0 <= i < Z.of_nat (length g) ->
  exists s, nth_error g (Z.to_nat i) = Some s /\ group_getInterface g i = Some s /\ group_getInterfaceName g i = getInterfaceName s.
Proof.
  intros g i H. unfold group_getInterface, group_getInterfaceName.
  destruct (Z.leb_spec (Z.of_nat (length g)) i); [lia|].
  destruct (nth_error g (Z.to_nat i)) as [s|] eqn:E; [|apply nth_error_None in E; lia]. eauto.
Qed.

Lemma reconfigure_terminates : forall g ans configs n, (length g <= 255)%nat ->
  forall fuel i t log, 0 <= i <= Z.of_nat (length g) -> Z.of_nat (length g) - i < Z.of_nat fuel ->
  reconfigure_loop fuel i t g ans configs n log <> None.
Proof.
  intros g ans configs n G. induction fuel; intros i t log I F; [lia|]. cbn [reconfigure_loop].
  destruct (Z.ltb_spec i (Z.of_nat (length g))); [|discriminate].
  destruct (nth_error g (Z.to_nat i)); [|discriminate].
  destruct (configureFilters _ _ _ _ _) as [[r log']|]; [|discriminate].
  destruct (result_not r); [discriminate|]. rewrite Z.mod_small by lia. apply IHfuel; lia.
Qed.

Lemma reconfigure_bounded_iff : forall g configs n log,
  (n <= match configs with Some cs => length cs | None => 0 end)%nat ->
  ((exists fuel, forall ans, reconfigureFilters fuel g ans configs n log <> None) <-> (length g <= 255)%nat).
Proof.
  intros g configs n log C. split.
  - intros [fuel H]. destruct (Compare_dec.le_lt_dec (length g) 255); auto. exfalso.
    apply (H (fun _ _ _ => 0)). destruct configs as [cs|].
    + apply reconfigure_diverges; auto; lia.
    + assert (n = 0)%nat as -> by lia. unfold reconfigureFilters.
      assert (X : forall f i t lg, reconfigure_loop f i t g (fun _ _ _ => 0) None 0 lg = reconfigure_loop f i t g (fun _ _ _ => 0) (Some []) 0 lg).
      { induction f; intros; [reflexivity|]. cbn [reconfigure_loop]. destruct (_ <? _); [|reflexivity].
        destruct (nth_error _ _); [|reflexivity]. rewrite !configure_zero. cbn. apply IHf. }
      rewrite X. apply reconfigure_diverges; cbn [length]; auto; lia.
  - intros G. exists (S (length g)). intros ans. apply reconfigure_terminates; lia.
Qed.

Lemma reconfigure_null : forall g ans n log, (1 <= n)%nat -> Z.of_nat n <= 512 -> g <> [] ->
  forall fuel, (0 < fuel)%nat -> reconfigureFilters fuel g ans None n log = Some (Ret (BadArgument, log)).
Proof.
  intros g ans n log N1 N2 G fuel F. destruct fuel; [lia|]. unfold reconfigureFilters. cbn [reconfigure_loop].
  destruct g as [|s g]; [contradiction|]. cbn [length]. destruct (Z.ltb_spec 0 (Z.of_nat (S (length g)))); [|lia].
  change (Z.to_nat 0) with 0%nat. cbn [nth_error].
  destruct (configure_null (ans 0%nat) (getSocketDescriptor s) n log) as [E _]; [lia|]. rewrite (proj2 E N2). reflexivity.
Qed.

(** Where abs of the most negative number is itself (wrapping two's complement), a zero timeout is passed as the most
    negative number of nanoseconds. *)
Lemma select_zero_wrapping : forall P, wf_platform P -> int_width P <= 64 -> abs_of_min P 64 = Some (smin 64) -> forall ppoll g ignore,
  exists r req, select P ppoll g 0 ignore = Ret (r, req) /\ pr_sec req = 0 /\ pr_nsec req = - 2 ^ 63.
Proof.
  intros P W I A ppoll g ignore. unfold select. change (Z.quot 0 1000000) with 0. change (0 * 1000000) with 0. cbn zeta.
  assert (E : dur_sub P 64 0 0 = Ret (- 2 ^ 63)).
  { unfold dur_sub. rewrite sub_s_zero; auto; try lia; [|unfold sin_range, smin, smax; change (64 - 1) with 63; lia].
    rewrite A. reflexivity. }
  rewrite E. cbn [bind]. destruct (ppoll _) as [res rv].
  destruct (res =? 0); [|destruct (res <? 0); [|destruct (existsb _ _)]];
    eexists; eexists; (split; [reflexivity|split; reflexivity]).
Qed.
