From Coq Require Import ZArith Bool List Lia.
From Verif Require Import Outcome CanFrameModel PoolModel ContainerModel GuardModel GuardSpec.
Import ListNotations.
Open Scope Z_scope.

Lemma signed_iff : forall T t, is_signed T t = true <-> signed_integer T t \/ floating t.
Proof.
  intros T t. unfold signed_integer, floating. split.
  - destruct t; cbn; intros H; try discriminate H; tauto.
  - cbn [In]. intros [[H|[[-> H]|[-> H]]]|H].
    + repeat (destruct H as [<-|H]; [reflexivity|]). destruct H.
    + exact H.
    + exact H.
    + repeat (destruct H as [<-|H]; [reflexivity|]). destruct H.
Qed.

Lemma unsigned_iff : forall T t, is_signed T t = false <-> unsigned_integer T t \/ t = GuardModel.Bool \/ t = Pointer.
Proof.
  intros T t. unfold unsigned_integer. split.
  - destruct t; cbn; intros H; try discriminate H; tauto.
  - cbn [In]. intros [[H|[[-> H]|[-> H]]]|[->| ->]]; try reflexivity; try exact H.
    repeat (destruct H as [<-|H]; [reflexivity|]). destruct H.
Qed.

Lemma signed_integral_iff : forall T t, is_integral t && is_signed T t = true <-> signed_integer T t.
Proof.
  intros T t. unfold signed_integer. split.
  - destruct t; cbn; intros H; try discriminate H; tauto.
  - cbn [In]. intros [H|[[-> H]|[-> H]]]; try exact H.
    repeat (destruct H as [<-|H]; [reflexivity|]). destruct H.
Qed.

Lemma unsigned_integral_iff : forall T t, is_integral t && negb (is_signed T t) = true <-> unsigned_integer T t \/ t = GuardModel.Bool.
Proof.
  intros T t. unfold unsigned_integer. split.
  - destruct t; cbn; intros H; try discriminate H; try tauto; apply negb_true_iff in H; tauto.
  - cbn [In]. intros [[H|[[-> H]|[-> H]]]| ->]; try reflexivity; try (cbn; rewrite H; reflexivity).
    repeat (destruct H as [<-|H]; [reflexivity|]). destruct H.
Qed.

Lemma compiles_iff : forall T i, compiles T i = true <->
  match i with
  | IDuration usec size => size = size_of T usec /\ (signed_integer T usec \/ floating usec)
  | ITime dtype usec size => size = size_of T usec /\ (unsigned_integer T usec \/ usec = GuardModel.Bool \/ usec = Pointer) /\
      exists m, dtype = Some m /\ size_of T m = size_of T usec
  | IFrame mtu => documented T i /\ (zero_arrays T = true \/ mtu <> O)
  | _ => documented T i
  end.
Proof.
  intros T i. unfold compiles, compiles_with, guards. cbn [forallb negb orb].
  destruct i as [usec size|dtype usec size|tx rx|mtu|n|tsz bs]; cbn [passes documented arrays_have_elements];
    rewrite ?orb_true_r, ?andb_true_r, ?andb_true_l.
  - rewrite andb_true_iff, Z.eqb_eq, signed_iff. reflexivity.
  - destruct dtype as [m|].
    + rewrite !andb_true_iff, !Z.eqb_eq, negb_true_iff, unsigned_iff. split.
      * intros (A & B & C). repeat split; auto. exists m. auto.
      * intros (A & B & m' & C & D). injection C as <-. auto.
    + rewrite !andb_false_r. split; [discriminate|]. intros (_ & _ & m & C & _). discriminate C.
  - rewrite !andb_true_iff, orb_true_iff, andb_true_iff, !Nat.ltb_lt. tauto.
  - rewrite andb_true_iff, orb_true_iff, Nat.leb_le, Nat.ltb_lt. unfold FD_MaxFrameSizeBytes. split; intros [A [B|B]]; (split; [exact A|]); auto; right; lia.
  - rewrite andb_true_iff, orb_true_iff, Nat.ltb_lt. tauto.
  - destruct tsz; cbn [allocator_accepts]; rewrite Z.leb_le; lia.
Qed.

Lemma documented_compiles : forall T i, documented T i -> (compiles T i = true <-> zero_arrays T = true \/ i <> IFrame O).
Proof.
  intros T i H. rewrite compiles_iff. destruct i as [usec size|dtype usec size| |mtu| | ]; try (split; [intros _; right; discriminate|intros _; exact H]).
  - split; [intros _; right; discriminate|]. intros _. destruct H as [A B]. auto.
  - split; [intros _; right; discriminate|]. intros _. destruct H as (A & B & m & C & _ & D). repeat split; auto. exists m. auto.
  - split.
    + intros [_ [Z|N]]; [auto|]. right. congruence.
    + intros [Z|N]; (split; [exact H|]); [auto|]. right. congruence.
Qed.

Lemma signed_not_unsigned : forall T t, signed_integer T t -> unsigned_integer T t \/ t = GuardModel.Bool -> False.
Proof.
  intros T t A B. apply signed_integral_iff in A. apply unsigned_integral_iff in B.
  apply andb_true_iff in A. apply andb_true_iff in B. destruct A as [_ A], B as [_ B]. rewrite A in B. discriminate B.
Qed.

Lemma ctype_beq_eq : forall a b, ctype_beq a b = true <-> a = b.
Proof. intros a b. split; [apply internal_ctype_dec_bl | apply internal_ctype_dec_lb]. Qed.

Lemma overload_iff : forall T l r, saturating_overload T l r <> None <->
  (l = r /\ is_integral l = true) \/ ((unsigned_integer T l \/ l = GuardModel.Bool) /\ signed_integer T r).
Proof.
  intros T l r. rewrite <- unsigned_integral_iff, <- signed_integral_iff. unfold saturating_overload.
  pose proof (ctype_beq_eq l r) as E. destruct (ctype_beq l r).
  - assert (l = r) by (apply E; reflexivity). subst r.
    destruct (is_integral l), (is_signed T l); cbn; split; intros H; try discriminate; auto.
    all: try (exfalso; apply H; reflexivity).
    all: destruct H as [[_ H]|[H _]]; discriminate.
  - assert (l <> r) by (intros H; apply E in H; discriminate).
    destruct (is_integral l), (is_signed T l), (is_integral r), (is_signed T r); cbn; split; intros K;
      try discriminate; try (exfalso; apply K; reflexivity); auto;
      destruct K as [[K _]|[K1 K2]]; try discriminate; contradiction.
Qed.

Lemma overload_which : forall T l r o, saturating_overload T l r = Some o <->
  match o with
  | OSigned => l = r /\ signed_integer T l
  | OUnsigned => l = r /\ (unsigned_integer T l \/ l = GuardModel.Bool)
  | OMixed => (unsigned_integer T l \/ l = GuardModel.Bool) /\ signed_integer T r
  end.
Proof.
  intros T l r o.
  assert (match o with
          | OSigned => l = r /\ is_integral l && is_signed T l = true
          | OUnsigned => l = r /\ is_integral l && negb (is_signed T l) = true
          | OMixed => is_integral l && negb (is_signed T l) = true /\ is_integral r && is_signed T r = true
          end <->
          match o with
          | OSigned => l = r /\ signed_integer T l
          | OUnsigned => l = r /\ (unsigned_integer T l \/ l = GuardModel.Bool)
          | OMixed => (unsigned_integer T l \/ l = GuardModel.Bool) /\ signed_integer T r
          end) as <- by (destruct o; rewrite ?unsigned_integral_iff, ?signed_integral_iff; reflexivity).
  unfold saturating_overload.
  pose proof (ctype_beq_eq l r) as E. destruct (ctype_beq l r).
  - assert (l = r) by (apply E; reflexivity). subst r.
    destruct (is_integral l), (is_signed T l), o; cbn; split; intros H; try discriminate; auto; destruct H as [H1 H2]; discriminate.
  - assert (l <> r) by (intros H; apply E in H; discriminate).
    destruct (is_integral l), (is_signed T l), (is_integral r), (is_signed T r), o; cbn; split; intros K; try discriminate; auto;
      destruct K as [K1 K2]; try discriminate; contradiction.
Qed.

Lemma some_true : forall {A} (o : option A), match o with Some _ => true | None => false end = true <-> o <> None.
Proof. intros A [a|]; split; intros H; try discriminate; auto. Qed.

Lemma signed_is_integral : forall T t, signed_integer T t -> is_integral t = true.
Proof. intros T t H. apply signed_integral_iff in H. apply andb_true_iff in H. apply H. Qed.
Lemma unsigned_is_integral : forall T t, unsigned_integer T t -> is_integral t = true.
Proof. intros T t H. assert (E : is_integral t && negb (is_signed T t) = true) by (apply unsigned_integral_iff; auto). apply andb_true_iff in E. apply E. Qed.
Lemma floating_not_integral : forall t, floating t -> is_integral t = false.
Proof. unfold floating. intros t H. repeat (destruct H as [<-|H]; [reflexivity|]). destruct H. Qed.

Lemma adds_duration : forall T usec size, adds T (IDuration usec size) = true <-> documented T (IDuration usec size).
Proof.
  intros T usec size. unfold adds. rewrite andb_true_iff, compiles_iff, some_true, overload_iff. cbn [documented]. split.
  - intros [[A [B|B]] C]; [auto|]. apply floating_not_integral in B. exfalso. destruct C as [[_ C]|[C1 C2]]; [congruence|].
    apply signed_is_integral in C2. congruence.
  - intros [A B]. split; [auto|]. left. split; [reflexivity|]. exact (signed_is_integral T usec B).
Qed.

Lemma adds_time : forall T dtype usec size, adds T (ITime dtype usec size) = true <->
  size = size_of T usec /\ (unsigned_integer T usec \/ usec = GuardModel.Bool) /\
  exists m, dtype = Some m /\ size_of T m = size_of T usec /\ (signed_integer T m \/ m = usec).
Proof.
  intros T dtype usec size. unfold adds. rewrite andb_true_iff, compiles_iff. destruct dtype as [m|].
  - rewrite some_true, overload_iff. split.
    + intros ((A & B & m' & C & D) & E). injection C as <-. split; [exact A|].
      assert (I : is_integral usec = true).
      { destruct E as [[_ E]|[[E| ->] _]]; auto. exact (unsigned_is_integral T usec E). }
      assert (U : unsigned_integer T usec \/ usec = GuardModel.Bool).
      { destruct B as [B|[B| ->]]; auto. discriminate I. }
      split; [exact U|]. exists m. repeat split; auto. destruct E as [[E _]|[_ E]]; auto.
    + intros (A & B & m' & C & D & E). injection C as <-. split.
      * repeat split; auto; [destruct B; auto|]. exists m. auto.
      * destruct E as [E| ->]; [right; auto|]. left. split; [reflexivity|].
        destruct B as [B| ->]; [exact (unsigned_is_integral T usec B)|reflexivity].
  - split; [intros [_ H]; discriminate H|]. intros (_ & _ & m & H & _). discriminate H.
Qed.

Lemma lookup_ok : forall l i, (exists x, lookup l i = Ret x) <-> 0 <= i < Z.of_nat (length l).
Proof.
  intros l i. unfold lookup. destruct (Z.ltb_spec i 0); [split; [intros [x H']; discriminate | lia]|].
  destruct (nth_error l (Z.to_nat i)) eqn:E.
  - assert (N : nth_error l (Z.to_nat i) <> None) by congruence. apply nth_error_Some in N.
    split; [intros _; lia|]. intros _. eexists; reflexivity.
  - apply nth_error_None in E. split; [intros [x H']; discriminate|lia].
Qed.
Lemma lookup_nth : forall l i d, 0 <= i < Z.of_nat (length l) -> lookup l i = Ret (nth (Z.to_nat i) l d).
Proof.
  intros l i d H. unfold lookup. destruct (Z.ltb_spec i 0); [lia|]. rewrite (nth_error_nth' l d); [reflexivity|lia].
Qed.

Lemma frame_guard : forall mtu,
  (forall len, 0 <= len -> lengthToDlc_checked mtu len = Ret (lengthToDlc mtu len)) <-> (mtu <= 64)%nat.
Proof.
  intros mtu. assert (L : Z.of_nat (length length_to_dlc_lookup) = 65) by reflexivity. split.
  - intros H. specialize (H (Z.of_nat mtu) ltac:(lia)). unfold lengthToDlc_checked in H. rewrite Z.ltb_irrefl in H.
    assert (E : exists x, lookup length_to_dlc_lookup (Z.of_nat mtu) = Ret x) by eauto. apply lookup_ok in E. rewrite L in E. lia.
  - intros H len N. unfold lengthToDlc_checked, lengthToDlc. destruct (Z.ltb_spec (Z.of_nat mtu) len).
    + rewrite (lookup_nth _ _ 0) by (rewrite L; lia). rewrite Nat2Z.id. reflexivity.
    + apply lookup_nth. rewrite L. lia.
Qed.

Lemma frame_overrun : forall mtu len, (64 < mtu)%nat -> 64 < len -> lengthToDlc_checked mtu len = UB.
Proof.
  intros mtu len A B. unfold lengthToDlc_checked.
  assert (U : forall i, 64 < i -> lookup length_to_dlc_lookup i = UB).
  { intros i I. destruct (lookup length_to_dlc_lookup i) eqn:E; [|reflexivity].
    assert (X : exists x, lookup length_to_dlc_lookup i = Ret x) by eauto. apply lookup_ok in X. cbn [length length_to_dlc_lookup] in X. lia. }
  destruct (Z.of_nat mtu <? len); apply U; lia.
Qed.

Lemma store_ok : forall i c m, (i < length m)%nat -> store (Z.of_nat i) c m = Ret (replace_nth i c m).
Proof.
  intros i c m H. unfold store. destruct (Z.leb_spec 0 (Z.of_nat i)); [|lia].
  destruct (Z.ltb_spec (Z.of_nat i) (Z.of_nat (length m))); [|lia]. cbn [andb]. rewrite Nat2Z.id. reflexivity.
Qed.
Lemma replace_len : forall {A} i (c : A) m, length (replace_nth i c m) = length m.
Proof. intros A i. induction i as [|i IH]; intros c [|x m]; cbn; auto. Qed.
Lemma init_loop_ok : forall i next m, (i <= length m)%nat -> init_loop_checked i next m = Ret (init_loop i next m).
Proof.
  induction i as [|i IH]; intros next m H; [reflexivity|]. cbn [init_loop_checked init_loop].
  rewrite store_ok by lia. cbn [bind]. apply IH. rewrite replace_len. lia.
Qed.

Lemma pool_guard : forall bits n, 0 < bits -> Z.of_nat n < 2 ^ bits ->
  (pool_init_checked bits n <> UB <-> (0 < n)%nat) /\ ((0 < n)%nat -> pool_init_checked bits n = Ret (pool_init n)).
Proof.
  intros bits n B W. assert (P : 0 < 2 ^ bits) by (apply Z.pow_pos_nonneg; lia).
  assert (OK : (0 < n)%nat -> pool_init_checked bits n = Ret (pool_init n)).
  { intros N. unfold pool_init_checked, pool_init.
    replace ((Z.of_nat n - 1) mod 2 ^ bits) with (Z.of_nat (n - 1)) by (rewrite Z.mod_small; lia).
    rewrite store_ok by (rewrite repeat_length; lia). cbn [bind].
    rewrite init_loop_ok by (rewrite replace_len, repeat_length; lia). reflexivity. }
  split; [|exact OK]. split.
  - intros H. destruct n; [|lia]. exfalso. apply H. unfold pool_init_checked. cbn [repeat].
    pose proof (Z.mod_pos_bound (Z.of_nat 0 - 1) (2 ^ bits) P) as R. unfold store.
    destruct (Z.ltb_spec ((Z.of_nat 0 - 1) mod 2 ^ bits) (Z.of_nat (length (@nil cell)))); [cbn [length] in *; lia|].
    rewrite andb_false_r. reflexivity.
  - intros N. rewrite (OK N). discriminate.
Qed.

(** Which of the checks the compile tests depend on. *)
Lemma tests_need : forall b there i64 u64 u32 pad, test_types (b_target b) i64 u64 u32 -> 0 < pad ->
  (compile_tests_pass b there i64 u64 u32 pad = true <->
   b_makefiles b = false \/ b_links b = false \/ forall g, noticed b g -> there g = true).
Proof.
  intros [T mk un ln] there i64 u64 u32 pad (S & U & V & E & N) P. cbn [b_target] in *.
  assert (A : is_signed T i64 = true) by (apply signed_iff; auto).
  assert (B : is_signed T u64 = false) by (apply unsigned_iff; auto).
  assert (C : is_signed T u32 = false) by (apply unsigned_iff; auto).
  assert (S1 : (size_of T i64 + pad =? size_of T i64) = false) by (apply Z.eqb_neq; lia).
  assert (S2 : (size_of T u64 + pad =? size_of T u64) = false) by (apply Z.eqb_neq; lia).
  assert (S3 : (size_of T u64 =? size_of T i64) = true) by (apply Z.eqb_eq; lia).
  assert (S4 : (size_of T u32 =? size_of T i64) = false) by (apply Z.eqb_neq; exact N).
  unfold compile_tests_pass, test_programs, command_succeeds, compiles_with, guards. cbn [b_target b_makefiles b_unused_rejected b_links forallb passes tp_what tp_unused].
  rewrite ?A, ?B, ?C, ?S1, ?S2, ?S3, ?S4, ?Z.eqb_refl. cbn [negb arrays_have_elements].
  destruct mk; [|cbn; split; auto]. destruct ln; [|rewrite !andb_false_r; cbn; split; auto].
  rewrite ?orb_true_r, ?orb_false_r. cbn [andb negb orb Nat.ltb Nat.leb FD_MaxFrameSizeBytes].
  rewrite ?orb_true_r, ?orb_false_r, ?andb_true_r.
  cbn [andb negb orb]. rewrite ?andb_true_r, ?andb_false_r, ?orb_false_r, ?negb_involutive.
  rewrite !andb_true_iff. split.
  - intros (H1 & H2 & H3 & H4 & H5 & _ & H6 & H7 & H8). right. right. intros g G.
    destruct g; cbn [noticed b_target b_unused_rejected] in G; try contradiction; try assumption; rewrite G in *.
    + destruct (there DurationSize); [reflexivity|discriminate H1].
    + destruct (there TimeSize); [reflexivity|discriminate H3].
    + destruct (there GroupTx); [reflexivity|discriminate H7].
    + destruct (there GroupRx); [reflexivity|discriminate H6].
  - intros [H|[H|H]]; try discriminate H.
    rewrite (H DurationSigned Logic.I), (H TimeUnsigned Logic.I), (H TimeDuration Logic.I), (H FrameMtu Logic.I).
    pose proof (H DurationSize) as K1. pose proof (H TimeSize) as K2. pose proof (H GroupTx) as K3. pose proof (H GroupRx) as K4.
    cbn [noticed b_target b_unused_rejected] in K1, K2, K3, K4.
    destruct un; [|rewrite K1, K2 by reflexivity]; (destruct (zero_arrays T); [rewrite K3, K4 by reflexivity|]);
      rewrite ?andb_false_r; repeat split; reflexivity.
Qed.
