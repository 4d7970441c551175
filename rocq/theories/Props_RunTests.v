(** C173: running the tests as documented runs every test, and fails if one fails. *)
From Coq Require Import Bool List String Ascii.
From Verif Require Import RunTestsModel RunTestsSpec RunTestsProofs.
Import ListNotations.
Open Scope string_scope.
Open Scope list_scope.

(** C173, full statement (refuted for the documented commands): after any history of changes, if CMake, make and "make test" succeed, every unit test
    can be built and passes, and every compile test is rejected; and if all that is so, they succeed. *)

(** Refuted: all three succeed with a unit test that fails. No history of changes is needed. *)
Theorem C173_documented_refuted :
  exists n c, let p := history n c [] in
  a_directory p /\ snd (configure p) = true /\ make_all (fst (configure p)) = true /\ make_test (fst (configure p)) = true /\
  ~ unit_tests_pass (fst (configure p)).
Proof.
  exists [UnitTest "test_result.cpp" true false], [CompileTest "test_time_001.cpp" false].
  cbn zeta. split; [split; repeat constructor; cbn; tauto|]. repeat (split; [vm_compute; reflexivity|]).
  intros H. specialize (H (UnitTest "test_result.cpp" true false)). destruct H as (_ & H).
  - vm_compute. now left.
  - exists "result". reflexivity.
  - discriminate.
Qed.
Print Assumptions C173_documented_refuted.

(** What the documented commands tell, right after CMake succeeded: make that all unit tests can be built; "make test" that no compile test can. *)
Theorem C173_documented_iff_partial : forall n c h,
  let p := history n c h in
  a_directory p -> snd (configure p) = true ->
  (make_all (fst (configure p)) = true <-> forall u, In u (native p) -> test_name (u_name u) -> u_builds u = true) /\
  (make_test (fst (configure p)) = true <-> compile_tests_rejected p).
Proof.
  intros n c h p D S. pose proof (configure_lists p S) as L. destruct (configure_files p) as (Fn & Fc).
  assert (D' : a_directory (fst (configure p))) by (unfold a_directory; rewrite Fn, Fc; exact D).
  rewrite (make_all_iff _ _ _ D' L), (make_test_iff _ _ _ D' L). rewrite Fn, Fc. split; split.
  - intros A u I T. destruct (A (u_name u)) as (v & Iv & E & B); [apply listed_native; split; [exact T | now exists u]|].
    assert (K : v = u); [|now subst]. destruct D as (D & _). pose proof (find_unit _ D v Iv) as F1. rewrite E in F1.
    rewrite (find_unit _ D u I) in F1. now injection F1.
  - intros A x X. apply listed_native in X. destruct X as (T & u & I & <-). exists u. repeat split; [exact I | now apply A].
  - intros A t I T. apply A; [exact I|]. apply listed_compile. split; [exact T | now exists t].
  - intros A t I X. apply A; [exact I|]. apply listed_compile in X. tauto.
Qed.
Print Assumptions C173_documented_iff_partial.

(** The target test_all, right after CMake succeeded, tells whether all unit tests pass. *)
Theorem C173_test_all_after_configure : forall n c h,
  let p := history n c h in
  a_directory p -> snd (configure p) = true -> (make_test_all (fst (configure p)) = true <-> unit_tests_pass p).
Proof.
  intros n c h p D S. pose proof (configure_lists p S) as L. destruct (configure_files p) as (Fn & Fc).
  assert (D' : a_directory (fst (configure p))) by (unfold a_directory; rewrite Fn, Fc; exact D).
  rewrite (make_test_all_iff _ _ _ D' L), Fn. split.
  - intros A u I T. destruct (A (u_name u)) as (v & Iv & E & B); [apply listed_native; split; [exact T | now exists u]|].
    assert (K : v = u); [|now subst]. destruct D as (D & _). pose proof (find_unit _ D v Iv) as F1. rewrite E in F1.
    rewrite (find_unit _ D u I) in F1. now injection F1.
  - intros A x X. apply listed_native in X. destruct X as (T & u & I & <-). exists u. destruct (A u I T). tauto.
Qed.
Print Assumptions C173_test_all_after_configure.

(** The files of the project. *)
Definition now_native : list unit_test :=
  [UnitTest "test_result.cpp" true true; UnitTest "test_util_math.cpp" true true; UnitTest "tests.cmake" false false].
Definition now_compile : list compile_test := [CompileTest "test_time_001.cpp" false; CompileTest "compile_tests.cmake" true].

Example C173_test_all_after_configure_case :
  let p := history now_native now_compile [] in
  a_directory p /\ snd (configure p) = true /\ make_all (fst (configure p)) = true /\ make_test (fst (configure p)) = true /\
  make_test_all (fst (configure p)) = true /\ unit_tests_pass p /\ compile_tests_rejected p.
Proof.
  cbn zeta. split; [split; repeat constructor; cbn; intuition discriminate|]. repeat (split; [vm_compute; reflexivity|]). split.
  - intros u [<- | [<- | [<- | []]]] (x & E); try (split; reflexivity). discriminate.
  - intros u [<- | [<- | []]] (x & E); [reflexivity | discriminate].
Qed.

(** Refuted also for test_all, if CMake is not run again: CMake lists the tests only when it runs. A test added since is not run. *)
Theorem C173_new_test_refuted :
  exists n c n', let p := history n c [Configure; Files n' c] in
  a_directory p /\ make_all p = true /\ make_test p = true /\ make_test_all p = true /\ ~ unit_tests_pass p.
Proof.
  exists [UnitTest "test_result.cpp" true true], [], [UnitTest "test_result.cpp" true true; UnitTest "test_new.cpp" true false].
  cbn zeta. split; [split; repeat constructor; cbn; intuition discriminate|]. repeat (split; [vm_compute; reflexivity|]).
  intros H. specialize (H (UnitTest "test_new.cpp" true false)). destruct H as (_ & H); [vm_compute; tauto | exists "new"; reflexivity | discriminate].
Qed.
Print Assumptions C173_new_test_refuted.

(** What they tell at any time: if the last configuration that succeeded was in p1, and any files came and went since, and CMake failed or was not run,
    test_all succeeds exactly if every unit test of p1 is still there under its name, can be built, and passes; "make test" exactly if no compile test
    of p1 that is still there can be built. *)
Theorem C173_any_time_iff_partial : forall n c h files,
  let p1 := history n c h in
  let p := fold_left step files (fst (configure p1)) in
  snd (configure p1) = true ->
  (forall before after, files = before ++ Configure :: after -> snd (configure (fold_left step before (fst (configure p1)))) = false) ->
  a_directory p ->
  (make_test_all p = true <->
   forall x, test_of p1 Native x -> exists u, In u (native p) /\ u_name u = x /\ u_builds u = true /\ u_passes u = true) /\
  (make_test p = true <-> forall t, In t (compile p) -> test_of p1 Compile (c_name t) -> c_builds t = false).
Proof.
  intros n c h files p1 p S F D.
  assert (L : listed p = listed (fst (configure p1))).
  { unfold p. clear D p. revert F. generalize (fst (configure p1)). induction files as [|e files IH]; intros q F; [reflexivity|].
    cbn [fold_left]. rewrite IH.
    - destruct e as [n' c'|]; [reflexivity|]. cbn [step]. now rewrite (configure_fails q (F [] files eq_refl)).
    - intros before after ->. exact (F (e :: before) after eq_refl). }
  rewrite (configure_lists p1 S) in L. rewrite (make_test_all_iff _ _ _ D L), (make_test_iff _ _ _ D L). split; split.
  - intros A x X. apply A. now apply listed_native.
  - intros A x X. apply A. now apply listed_native in X.
  - intros A t I X. apply A; [exact I | now apply listed_compile].
  - intros A t I X. apply A; [exact I | now apply listed_compile in X].
Qed.
Print Assumptions C173_any_time_iff_partial.

(** A deleted unit test makes test_all fail, a deleted compile test passes. A new test that CMake refuses, since its name clashes, is not run. *)
Example C173_any_time_iff_partial_case :
  let p := history now_native now_compile [Configure; Files [UnitTest "test_result.cpp" true true] []] in
  let q := history now_native now_compile [Configure; Files (UnitTest "test_result.2.cpp" false false :: now_native) now_compile; Configure] in
  a_directory p /\ make_test_all p = false /\ make_test p = true /\ a_directory q /\ make_test_all q = true.
Proof.
  cbn zeta. split; [split; repeat constructor; cbn; tauto|]. repeat (split; [vm_compute; reflexivity|]).
  split; [split; repeat constructor; cbn; intuition discriminate | vm_compute; reflexivity].
Qed.

(** When CMake succeeds: the names of the tests up to their first dots are different, in both directories together; none is test_all; and none of a
    unit test is that of another followed by _with_lcov. *)
Theorem C173_configure_iff : forall n c h,
  let p := history n c h in
  a_directory p ->
  (snd (configure p) = true <->
   (forall d x y t, test_of p d x -> test_of p d y -> stem_of x t -> stem_of y t -> x = y) /\
   (forall x y t, test_of p Native x -> test_of p Compile y -> stem_of x t -> ~ stem_of y t) /\
   (forall d x, test_of p d x -> ~ stem_of x "test_all") /\
   (forall x y t, test_of p Native x -> test_of p Native y -> stem_of y t -> ~ stem_of x (t ++ "_with_lcov"))).
Proof. intros n c h p D. exact (configure_iff p D). Qed.
Print Assumptions C173_configure_iff.

Example C173_configure_iff_case :
  (** A unit test and a compile test of the same name; two versions of a test; a test of running with lcov. *)
  snd (configure (history [UnitTest "test_time.cpp" true true] [CompileTest "test_time.cpp" false] [])) = false /\
  snd (configure (history [UnitTest "test_time.cpp" true true; UnitTest "test_time.2.cpp" true true] [] [])) = false /\
  snd (configure (history [UnitTest "test_time.cpp" true true; UnitTest "test_time_with_lcov.cpp" true true] [] [])) = false /\
  snd (configure (history [UnitTest "test_all.cpp" true true] [] [])) = false /\
  snd (configure (history [UnitTest "test_time.cpp" true true; UnitTest "test_time_2.cpp" true true] [CompileTest "test_time_001.cpp" false] [])) = true.
Proof. repeat split; vm_compute; reflexivity. Qed.

(** Before CMake has succeeded once in the build directory, all three commands fail. *)
Theorem C173_not_configured : forall n c h,
  let p := history n c h in
  (forall before after, h = before ++ Configure :: after -> snd (configure (history n c before)) = false) ->
  make_all p = false /\ make_test p = false /\ make_test_all p = false.
Proof.
  intros n c h p F. assert (L : listed p = None).
  { unfold p. clear p. induction h as [|e h IH] using rev_ind; [reflexivity|]. unfold history in *. rewrite fold_left_app. cbn [fold_left].
    assert (I : listed (fold_left step h (Project n c None)) = None)
      by (apply IH; intros b a E; apply (F b (a ++ [e])); rewrite E, <- app_assoc; reflexivity).
    destruct e as [n' c'|]; [exact I|]. cbn [step]. rewrite (configure_fails _ (F h [] eq_refl)). exact I. }
  unfold make_all, make_test, make_test_all. now rewrite L.
Qed.
Print Assumptions C173_not_configured.

Example C173_not_configured_case :
  snd (configure (history [UnitTest "test_all.cpp" true true] [] [])) = false /\
  make_test_all (history [UnitTest "test_all.cpp" true true] [] [Configure]) = false.
Proof. split; vm_compute; reflexivity. Qed.
