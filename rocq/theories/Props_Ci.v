(** C161: the pipeline. *)
From Coq Require Import PeanoNat Bool List String Lia.
From Verif Require Import CiModel CiSpec CiProofs.
Import ListNotations.
Open Scope string_scope.
Open Scope list_scope.

(** C161. Full statement: documentation and coverage are published only from the branch master, and only if every script that compiles or
    tests something, and the test on the board, has run and passed. For these it is so: *)
Theorem C161_published_only_if : forall ok agent branch, published (ci ok agent branch) ->
  branch = "master" /\
  forall s, In s ["./test/ci/native-gcc-build-and-test.sh"; "./test/ci/native-clang-build-and-test.sh"; "./test/ci/ontarget-s32k-build.sh";
                  board_test] -> passed s (ci ok agent branch).
Proof.
  intros ok agent branch H. apply published_only in H. destruct H as (-> & B1 & B2 & B3 & B4). split; [reflexivity |]. intros s I.
  apply passed_iff. destruct I as [<- | [<- | [<- | [<- | []]]]];
    (split; [eexists; apply ci_in; (split; [reflexivity |]) | assumption]); try (left; cbn; tauto). right. tauto.
Qed.
Print Assumptions C161_published_only_if.

(** Passing means that the compile tests and the unit tests succeeded. *)
Theorem C161_passed_tests : forall ok agent branch,
  let o := ci ok agent branch in
  (passed "./test/ci/native-gcc-build-and-test.sh" o ->
     succeeded ok "./test/ci/native-gcc-build-and-test.sh" ["ctest"; "-VV"] o /\
     exists c, builds "cov_all" c /\ succeeded ok "./test/ci/native-gcc-build-and-test.sh" c o) /\
  (passed "./test/ci/native-clang-build-and-test.sh" o ->
     succeeded ok "./test/ci/native-clang-build-and-test.sh" ["ctest"; "-VV"] o /\
     exists c, builds "test_all" c /\ succeeded ok "./test/ci/native-clang-build-and-test.sh" c o) /\
  (passed "./test/ci/ontarget-s32k-build.sh" o ->
     succeeded ok "./test/ci/ontarget-s32k-build.sh" ["ctest"; "-VV"] o /\
     exists c, builds "all" c /\ succeeded ok "./test/ci/ontarget-s32k-build.sh" c o) /\
  (passed board_test o -> succeeded ok board_test [board_test] o).
Proof.
  intros ok agent branch o. split; [| split; [| split]]; intros P; [split | split | split |].
  - apply (passed_succeeded ok agent branch _ _ P). cbn. tauto.
  - exists (build (step_env (own gcc) (agent gcc)) "cov_all"). split; [apply build_builds |].
    apply (passed_succeeded ok agent branch _ _ P). do 7 right. left. reflexivity.
  - apply (passed_succeeded ok agent branch _ _ P). cbn. tauto.
  - exists (build (step_env (own clang) (agent clang)) "test_all"). split; [apply build_builds |].
    apply (passed_succeeded ok agent branch _ _ P). do 5 right. left. reflexivity.
  - apply (passed_succeeded ok agent branch _ _ P). cbn. tauto.
  - exists (build_all (step_env (own s32k) (agent s32k))). split; [apply build_all_builds |].
    apply (passed_succeeded ok agent branch _ _ P). do 3 right. left. reflexivity.
  - apply (passed_succeeded ok agent branch _ _ P). cbn. tauto.
Qed.
Print Assumptions C161_passed_tests.

(** Each of the scripts, run by hand in any environment, passes only if it compiled everything, and ran what tests it has. *)
Theorem C161_script : forall ok e s cs, In s test_scripts -> shell ok 0 (file_lines s e) = (cs, true) ->
  (exists n c, nth_error cs n = Some c /\ builds "all" c /\ ok n c = true) /\
  (s <> "./test/ci/linux-build.sh" -> exists n, nth_error cs n = Some ["ctest"; "-VV"] /\ ok n ["ctest"; "-VV"] = true) /\
  ((exists t c, In t ["cov_all"; "test_all"] /\ builds t c /\ exists n, nth_error cs n = Some c /\ ok n c = true) \/
   s = "./test/ci/linux-build.sh" \/ s = "./test/ci/ontarget-s32k-build.sh").
Proof.
  intros ok e s cs I E. pose proof (proj1 (shell_passed ok (file_lines s e) 0)) as P. rewrite E in P. destruct (P eq_refl) as [L O]. cbn [fst] in L, O.
  assert (forall n c, nth_error (file_lines s e) n = Some (Some c) -> nth_error cs n = Some c /\ ok n c = true) as K.
  { intros n c H. rewrite L, nth_error_map in H. destruct (nth_error cs n) as [d |] eqn:D; [| discriminate H]. cbn in H. injection H as ->.
    split; [reflexivity |]. apply (O n c D). }
  clear P L O. destruct I as [<- | [<- | [<- | [<- | [<- | []]]]]].
  - split; [| split; [intros _ |]].
    + exists 5%nat, (["build-wrapper-linux-x86-64"; "--out-dir"; "."] ++ build_all e).
      destruct (K 5%nat _ eq_refl). split; [assumption |]. split; [| assumption]. destruct (build_all_builds e) as (a & b & ->).
      now exists (["build-wrapper-linux-x86-64"; "--out-dir"; "."] ++ a), b.
    + exists 6%nat. exact (K 6%nat _ eq_refl).
    + left. exists "cov_all", (build e "cov_all"). split; [cbn; tauto |]. split; [apply build_builds |].
      exists 7%nat. exact (K 7%nat _ eq_refl).
  - split; [| split; [intros _ |]].
    + exists 3%nat, (build_all e). destruct (K 3%nat _ eq_refl). split; [assumption |]. split; [apply build_all_builds | assumption].
    + exists 4%nat. exact (K 4%nat _ eq_refl).
    + left. exists "cov_all", (build e "cov_all"). split; [cbn; tauto |]. split; [apply build_builds |].
      exists 5%nat. exact (K 5%nat _ eq_refl).
  - split; [| split; [intros _ |]].
    + exists 3%nat, (build_all e). destruct (K 3%nat _ eq_refl). split; [assumption |]. split; [apply build_all_builds | assumption].
    + exists 4%nat. exact (K 4%nat _ eq_refl).
    + left. exists "test_all", (build e "test_all"). split; [cbn; tauto |]. split; [apply build_builds |].
      exists 5%nat. exact (K 5%nat _ eq_refl).
  - split; [| split; [intros N; contradiction |]].
    + exists 3%nat, (build_all e). destruct (K 3%nat _ eq_refl). split; [assumption |]. split; [apply build_all_builds | assumption].
    + right. now left.
  - split; [| split; [intros _ |]].
    + exists 3%nat, (build_all e). destruct (K 3%nat _ eq_refl). split; [assumption |]. split; [apply build_all_builds | assumption].
    + exists 4%nat. exact (K 4%nat _ eq_refl).
    + right. now right.
Qed.
Print Assumptions C161_script.

(** But two of the scripts are never run: the tests with exceptions and the Linux example. It is published though they fail. *)
Theorem C161_every_script_refuted : exists ok agent, published (ci ok agent "master") /\
  exists s, In s test_scripts /\ (forall n c, ok s n c = false).
Proof.
  exists (fun s _ _ => negb (String.eqb s "./test/ci/native-gcc-build-and-test-exceptions.sh")), (fun _ _ => Some "1"). split.
  - exists docs. eexists. split.
    + eexists _, _. split; [apply ci_in; split; [reflexivity |]; right; vm_compute; tauto |]. vm_compute. right. right. left. reflexivity.
    + eexists. left. reflexivity.
  - exists "./test/ci/native-gcc-build-and-test-exceptions.sh". split; [cbn; tauto |]. reflexivity.
Qed.
Print Assumptions C161_every_script_refuted.
(** Exactly: *)
Theorem C161_runs_iff_partial : forall ok agent branch s, In s test_scripts ->
  (ran s (ci ok agent branch) <-> s <> "./test/ci/native-gcc-build-and-test-exceptions.sh" /\ s <> "./test/ci/linux-build.sh").
Proof.
  intros ok agent branch s I. split.
  - intros (r & H). apply ci_in in H. destruct H as [_ H].
    split; intros ->; destruct H as [[E | [E | [E | []]]] | (_ & _ & _ & [E | (_ & _ & [E | [E | []]])])]; discriminate E.
  - intros [N1 N2]. eexists. apply ci_in. split; [reflexivity |]. left.
    destruct I as [<- | [<- | [<- | [<- | [<- | []]]]]]; try congruence; cbn; tauto.
Qed.
Print Assumptions C161_runs_iff_partial.

(** The documentation is uploaded if and only if, besides, the build has a number and the artifact could be fetched and unpacked. *)
Theorem C161_docs_iff : forall ok agent branch,
  (exists args, executed "./test/ci/postbuild-upload-docs.sh" ("gh-pages" :: args) (ci ok agent branch)) <->
  branch = "master" /\
  (forall s, In s ["./test/ci/native-gcc-build-and-test.sh"; "./test/ci/native-clang-build-and-test.sh"; "./test/ci/ontarget-s32k-build.sh";
                   board_test] -> passed s (ci ok agent branch)) /\
  agent "./test/ci/postbuild-upload-docs.sh" "BUILDKITE_BUILD_NUMBER" <> None /\
  ok "./test/ci/postbuild-upload-docs.sh" 0%nat ["buildkite-agent"; "artifact"; "download"; "test/build_native_gcc/docs/html.gz"; "."] = true /\
  ok "./test/ci/postbuild-upload-docs.sh" 1%nat ["tar"; "-xvf"; "test/build_native_gcc/docs/html.gz"] = true.
Proof.
  intros ok agent branch. split.
  - intros (args & X).
    assert (published (ci ok agent branch)) as P by (exists docs; eexists; split; [exact X | exists args; now left]).
    destruct (C161_published_only_if ok agent branch P) as [B Q]. split; [assumption |]. split; [assumption |].
    destruct X as (cs & b & I & C). apply ci_in in I. destruct I as [E _].
    assert (In ("gh-pages" :: args) (fst (result ok agent docs))) as K by (unfold docs; now rewrite <- E).
    unfold result, file_lines in K. cbn [docs String.eqb Ascii.eqb Bool.eqb] in K. unfold docs_lines in K. cbn [shell] in K.
    change (step_env (own docs) (agent docs) "BUILDKITE_BUILD_NUMBER") with (agent docs "BUILDKITE_BUILD_NUMBER") in K.
    change "./test/ci/postbuild-upload-docs.sh" with docs.
    destruct (ok docs 0%nat _); [| destruct K as [K | []]; discriminate K].
    destruct (ok docs 1%nat _); [| destruct K as [K | [K | []]]; discriminate K].
    destruct (agent docs "BUILDKITE_BUILD_NUMBER"); [repeat split; discriminate |]. destruct K as [K | [K | []]]; discriminate K.
  - intros (-> & Q & N & O0 & O1).
    destruct (agent "./test/ci/postbuild-upload-docs.sh" "BUILDKITE_BUILD_NUMBER") as [n |] eqn:A; [| contradiction].
    eexists. exists (fst (result ok agent docs)), (snd (result ok agent docs)). split.
    + apply ci_in. split; [symmetry; apply surjective_pairing |]. right.
      assert (forall s, passed s (ci ok agent "master") -> snd (result ok agent s) = true) as T by (intros s P; now apply passed_iff in P).
      repeat split; try (apply T, Q; cbn; tauto). right. repeat split; try (apply T, Q; cbn; tauto). cbn. tauto.
    + unfold result, file_lines. cbn [docs String.eqb Ascii.eqb Bool.eqb]. unfold docs_lines. cbn [shell].
      change (step_env (own docs) (agent docs) "BUILDKITE_BUILD_NUMBER") with (agent docs "BUILDKITE_BUILD_NUMBER").
      change docs with "./test/ci/postbuild-upload-docs.sh". rewrite O0, O1, A.
      destruct (ok _ 2%nat _); right; right; left; reflexivity.
Qed.
Print Assumptions C161_docs_iff.

(** The reports are uploaded if and only if, besides, there is a token and the commands before succeeded. *)
Theorem C161_reports_iff : forall ok agent branch,
  let s := "./test/ci/postbuild-upload-reports.sh" in
  (exists args, executed s ("sonar-scanner" :: args) (ci ok agent branch)) <->
  branch = "master" /\
  (forall s, In s ["./test/ci/native-gcc-build-and-test.sh"; "./test/ci/native-clang-build-and-test.sh"; "./test/ci/ontarget-s32k-build.sh";
                   board_test] -> passed s (ci ok agent branch)) /\
  agent s "SONARQUBE_TOKEN" <> None /\
  match agent s "BUILDKITE" with
  | Some _ => ok s 0%nat ["buildkite-agent"; "artifact"; "download"; "test/build_native_gcc/tests/coverage.info"; "."] = true /\
              ok s 1%nat ["buildkite-agent"; "artifact"; "download"; "test/build_native_gcc/build-wrapper-dump.json"; "."] = true
  | None => ok s 0%nat ["echo"; "Not BUILDKITE. Skipping artifact download."] = true /\ ok s 1%nat ["mkdir"; "-p"; "test/build_native_gcc"] = true
  end /\
  ok s 2%nat ["ls"; "-lah"; "test/build_native_gcc"] = true.
Proof.
  intros ok agent branch s. change s with coverage. clear s.
  assert (file_lines coverage (step_env (own coverage) (agent coverage)) = reports_lines (step_env (own coverage) (agent coverage))) as L by reflexivity.
  assert (step_env (own coverage) (agent coverage) "BUILDKITE" = agent coverage "BUILDKITE") as E1 by reflexivity.
  assert (step_env (own coverage) (agent coverage) "SONARQUBE_TOKEN" = agent coverage "SONARQUBE_TOKEN") as E2 by reflexivity.
  split.
  - intros (args & X).
    assert (published (ci ok agent branch)) as P by (exists coverage; eexists; split; [exact X | exists args; now right]).
    destruct (C161_published_only_if ok agent branch P) as [B Q]. split; [assumption |]. split; [assumption |].
    destruct X as (cs & b & I & C). apply ci_in in I. destruct I as [E _].
    assert (In ("sonar-scanner" :: args) (fst (result ok agent coverage))) as K by now rewrite <- E.
    unfold result in K. rewrite L in K. unfold reports_lines in K. rewrite E1, E2 in K.
    destruct (agent coverage "BUILDKITE"); cbn [map app shell] in K;
      (destruct (ok coverage 0%nat _); [| destruct K as [K | []]; discriminate K]);
      (destruct (ok coverage 1%nat _); [| destruct K as [K | [K | []]]; discriminate K]);
      (destruct (agent coverage "SONARQUBE_TOKEN"); cbn [map app shell] in K;
        (destruct (ok coverage 2%nat _); [| destruct K as [K | [K | [K | []]]]; discriminate K]);
        [repeat split; discriminate |]);
      (destruct (ok coverage 3%nat _); destruct K as [K | [K | [K | [K | []]]]]; discriminate K).
  - intros (-> & Q & N & O & O2).
    destruct (agent coverage "SONARQUBE_TOKEN") as [n |] eqn:A; [| contradiction].
    eexists. exists (fst (result ok agent coverage)), (snd (result ok agent coverage)). split.
    + apply ci_in. split; [symmetry; apply surjective_pairing |]. right.
      assert (forall s, passed s (ci ok agent "master") -> snd (result ok agent s) = true) as T by (intros s P; now apply passed_iff in P).
      repeat split; try (apply T, Q; cbn; tauto). right. repeat split; try (apply T, Q; cbn; tauto). cbn. tauto.
    + unfold result. rewrite L. unfold reports_lines. rewrite E1, E2, ?A.
      destruct (agent coverage "BUILDKITE"); cbn [map app shell]; destruct O as [O0 O1]; rewrite O0, O1, O2;
        (destruct (ok _ 3%nat _); do 3 right; left; reflexivity).
Qed.
Print Assumptions C161_reports_iff.

(** The coverage is that of a clean directory and of one job: what C159_one_job and C160_after_clean need. *)
Theorem C161_coverage_clean : forall ok agent branch s cs b before c after,
  In (s, (cs, b)) (ci ok agent branch) -> cs = before ++ c :: after -> builds "cov_all" c ->
  (forall v, agent s "CMAKE_BUILD_TYPE" = Some v -> prefix "-" v = false) ->
  ~ several_jobs c /\
  exists n d, nth_error before n = Some d /\ builds "clean" d /\ ok s n d = true.
Proof.
  intros ok agent branch s cs b before c after I -> B V. apply type_no_dash in V.
  apply ci_in in I. destruct I as [E H].
  assert (fst (result ok agent s) = before ++ c :: after) as F by now rewrite <- E.
  assert (In c (fst (result ok agent s))) as C by (rewrite F; apply in_app_iff; right; now left). apply result_lines in C.
  assert (forall t, t <> "cov_all" -> ~ builds "cov_all" (build (step_env (own s) (agent s)) t)) as Nb.
  { intros t Nt K. apply Nt. symmetry. apply (build_target _ _ _ V); [discriminate | assumption]. }
  assert (~ builds "cov_all" (build_all (step_env (own s) (agent s)))) as Na.
  { intros K. apply build_all_target in K; [discriminate K | assumption | discriminate]. }
  assert (In s [gcc; clang; s32k; board_test; docs; coverage]) as S.
  { cbn. destruct H as [[<- | [<- | [<- | []]]] | (_ & _ & _ & [-> | (_ & _ & [<- | [<- | []]])])]; tauto. }
  clear H. destruct S as [<- | S]; [exact (gcc_coverage (ok gcc) _ before c after F B V) |]. exfalso.
  destruct S as [<- | [<- | [<- | [<- | [<- | []]]]]];
    match type of C with In _ (file_lines ?f ?e) => set (en := e) in * end.
  - change (In (Some c) (clang_lines en)) in C. unfold clang_lines in C. cbn [map] in C.
    repeat (destruct C as [C | C]; [injection C as <-; first [contradiction | apply (Nb "test_all"); [discriminate | assumption] | words B] |]). destruct C.
  - change (In (Some c) (s32k_lines en)) in C. unfold s32k_lines in C. cbn [map] in C.
    repeat (destruct C as [C | C]; [injection C as <-; first [contradiction | words B] |]). destruct C.
  - change (In (Some c) [Some [board_test]]) in C. destruct C as [C | []]. injection C as <-. words B.
  - change (In (Some c) (docs_lines en)) in C. unfold docs_lines in C. destruct (en "BUILDKITE_BUILD_NUMBER").
    + repeat (destruct C as [C | C]; [injection C as <-; words B |]). destruct C.
    + destruct C as [C | [C | [C | []]]]; [injection C as <-; words B.. | discriminate C].
  - change (In (Some c) (reports_lines en)) in C. unfold reports_lines in C.
    destruct (en "BUILDKITE"), (en "SONARQUBE_TOKEN"); cbn [map app] in C;
      (repeat (destruct C as [C | C]; [injection C as <-; words B |])); destruct C.
Qed.
Print Assumptions C161_coverage_clean.

(** A build of master by which everything succeeds but the upload of the documentation, and one by which the clang tests fail. *)
Example C161_case :
  let agent := fun (_ : string) (_ : string) => Some "7" in
  let good := ci (fun _ _ c => match c with "gh-pages" :: _ => false | _ => true end) agent "master" in
  let bad := ci (fun s n _ => negb (String.eqb s "./test/ci/native-clang-build-and-test.sh" && Nat.eqb n 5)) agent "master" in
  map (fun r => (fst r, List.length (fst (snd r)), snd (snd r))) good =
    [("./test/ci/native-gcc-build-and-test.sh", 10%nat, true); ("./test/ci/native-clang-build-and-test.sh", 7%nat, true);
     ("./test/ci/ontarget-s32k-build.sh", 6%nat, true); (board_test, 1%nat, true);
     ("./test/ci/postbuild-upload-docs.sh", 3%nat, false); ("./test/ci/postbuild-upload-reports.sh", 4%nat, true)] /\
  map (fun r => (fst r, List.length (fst (snd r)), snd (snd r))) bad =
    [("./test/ci/native-gcc-build-and-test.sh", 10%nat, true); ("./test/ci/native-clang-build-and-test.sh", 6%nat, false);
     ("./test/ci/ontarget-s32k-build.sh", 6%nat, true)] /\
  builds "cov_all" ["cmake"; "--build"; "."; "--config"; "7"; "--target"; "cov_all"] /\
  executed "./test/ci/native-gcc-build-and-test.sh" ["cmake"; "--build"; "."; "--config"; "7"; "--target"; "cov_all"] good.
Proof.
  cbv zeta. split; [vm_compute; reflexivity |]. split; [vm_compute; reflexivity |]. split.
  - exists ["cmake"; "--build"; "."; "--config"; "7"], []. reflexivity.
  - eexists _, _. split; [apply ci_in; split; [reflexivity | left; now left] |]. vm_compute. tauto.
Qed.
