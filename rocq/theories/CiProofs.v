(** Proofs about the pipeline. *)
From Coq Require Import PeanoNat Bool List String Lia.
From Verif Require Import CiModel CiSpec.
Import ListNotations.
Open Scope string_scope.
Open Scope list_scope.

(** bash with errexit. *)
Lemma shell_prefix : forall ok ls n, exists rest, ls = map Some (fst (shell ok n ls)) ++ rest.
Proof.
  intros ok ls. induction ls as [| [c |] ls IH]; intros n; cbn [shell].
  - now exists [].
  - destruct (ok n c); [| now exists ls]. destruct (IH (S n)) as (rest & E). destruct (shell ok (S n) ls) as [cs b]. cbn [fst map app] in *.
    exists rest. now rewrite <- E.
  - now exists (None :: ls).
Qed.

Lemma shell_passed : forall ok ls n, snd (shell ok n ls) = true <->
  ls = map Some (fst (shell ok n ls)) /\ forall i c, nth_error (fst (shell ok n ls)) i = Some c -> ok (n + i)%nat c = true.
Proof.
  intros ok ls. induction ls as [| [c |] ls IH]; intros n; cbn [shell].
  - cbn. split; [| reflexivity]. intros _. split; [reflexivity |]. intros i c E. destruct i; discriminate E.
  - destruct (ok n c) eqn:O.
    + specialize (IH (S n)). destruct (shell ok (S n) ls) as [cs b]. cbn [fst snd map] in *. rewrite IH. split.
      * intros [-> H]. split; [reflexivity |]. intros [| i] d E; cbn [nth_error] in E.
        -- injection E as <-. now rewrite Nat.add_0_r.
        -- rewrite Nat.add_succ_r. now apply (H i).
      * intros [E H]. injection E as E. split; [assumption |]. intros i d D. specialize (H (S i) d D). now rewrite Nat.add_succ_r in H.
    + cbn [fst snd map]. split; [discriminate |]. intros [_ H]. specialize (H 0%nat c eq_refl). rewrite Nat.add_0_r in H. congruence.
  - cbn. split; [discriminate |]. intros [E _]. discriminate E.
Qed.

(** Up to the last command all succeeded. *)
Lemma shell_before : forall ok ls n a c b, fst (shell ok n ls) = a ++ c :: b -> forall i d, nth_error a i = Some d -> ok (n + i)%nat d = true.
Proof.
  intros ok ls. induction ls as [| [c0 |] ls IH]; intros n a c b E i d D; cbn [shell] in E.
  - destruct a; discriminate E.
  - destruct a as [| a0 a]; [destruct i; discriminate D |].
    destruct (ok n c0) eqn:O.
    + specialize (IH (S n) a c b). destruct (shell ok (S n) ls) as [cs b0]. cbn [fst] in *. injection E as <- E.
      destruct i as [| i]; cbn [nth_error] in D.
      * injection D as <-. now rewrite Nat.add_0_r.
      * rewrite Nat.add_succ_r. exact (IH E i d D).
    + cbn [fst] in E. injection E as _ E. destruct a; discriminate E.
  - destruct a; discriminate E.
Qed.

(** The environment of the steps. *)
Definition own (s : string) : list (string * string) :=
  match find (fun st => String.eqb (s_command st) s) (List.concat pipeline) with Some st => s_env st | None => [] end.
Definition result (ok : string -> nat -> command -> bool) (agent : string -> env) (s : string) : list command * bool :=
  shell (ok s) 0 (file_lines s (step_env (own s) (agent s))).

Definition gcc : string := "./test/ci/native-gcc-build-and-test.sh".
Definition clang : string := "./test/ci/native-clang-build-and-test.sh".
Definition s32k : string := "./test/ci/ontarget-s32k-build.sh".
Definition docs : string := "./test/ci/postbuild-upload-docs.sh".
Definition coverage : string := "./test/ci/postbuild-upload-reports.sh".

Lemma ci_eq : forall ok agent branch, let R := result ok agent in ci ok agent branch =
  [(gcc, R gcc); (clang, R clang); (s32k, R s32k)] ++
  (if snd (R gcc) && (snd (R clang) && (snd (R s32k) && true))
   then [(board_test, R board_test)] ++
     (if snd (R board_test) && true
      then (if String.eqb "master" branch then [(docs, R docs); (coverage, R coverage)] else []) ++
           (if forallb (fun r => snd (snd r)) (if String.eqb "master" branch then [(docs, R docs); (coverage, R coverage)] else []) then [] else [])
      else [])
   else []).
Proof.
  intros ok agent branch. cbv zeta. unfold ci, pipeline. cbn [run_groups flat_map run_step s_branch s_command s_env app].
  change (shell (ok "./test/ci/native-gcc-build-and-test.sh") 0 _) with (result ok agent gcc).
  change (shell (ok "./test/ci/native-clang-build-and-test.sh") 0 _) with (result ok agent clang).
  change (shell (ok "./test/ci/ontarget-s32k-build.sh") 0 _) with (result ok agent s32k).
  change (shell (ok "/etc/buildkite-agent/hooks/command") 0 _) with (result ok agent board_test).
  change (shell (ok "./test/ci/postbuild-upload-docs.sh") 0 _) with (result ok agent docs).
  change (shell (ok "./test/ci/postbuild-upload-reports.sh") 0 _) with (result ok agent coverage).
  cbn [forallb snd]. unfold run_step. cbn [s_branch s_command s_env].
  destruct (String.eqb "master" branch); reflexivity.
Qed.

(** What ran, and when. *)
Lemma ci_in : forall ok agent branch s r, In (s, r) (ci ok agent branch) <-> r = result ok agent s /\
  (In s [gcc; clang; s32k] \/
   snd (result ok agent gcc) = true /\ snd (result ok agent clang) = true /\ snd (result ok agent s32k) = true /\
   (s = board_test \/ snd (result ok agent board_test) = true /\ branch = "master" /\ In s [docs; coverage])).
Proof.
  intros ok agent branch s r. rewrite ci_eq. cbv zeta. rewrite in_app_iff.
  set (R := result ok agent). rewrite !andb_true_r.
  assert (forall x, In (s, r) [x] <-> (s, r) = x) as I1 by (intros x; split; [intros [E | []]; now rewrite E | intros E; left; congruence]).
  split.
  - intros [H | H].
    + destruct H as [E | [E | [E | []]]]; injection E as <- <-; (split; [reflexivity |]); left; cbn; tauto.
    + destruct (snd (R gcc) && (snd (R clang) && snd (R s32k))) eqn:B; [| destruct H].
      apply andb_prop in B. destruct B as [B1 B]. apply andb_prop in B. destruct B as [B2 B3].
      apply in_app_iff in H. destruct H as [H | H].
      * destruct H as [E | []]. injection E as <- <-. split; [reflexivity |]. right. tauto.
      * destruct (snd (R board_test)) eqn:B4; [| destruct H]. destruct (String.eqb_spec "master" branch) as [<- | N].
        -- apply in_app_iff in H. destruct H as [H | H]; [| destruct (forallb _ _); destruct H].
           destruct H as [E | [E | []]]; injection E as <- <-; (split; [reflexivity |]); right; cbn; tauto.
        -- destruct H.
  - intros [-> H]. destruct H as [H | (B1 & B2 & B3 & H)].
    + left. destruct H as [E | [E | [E | []]]]; subst s; cbn; tauto.
    + right. rewrite B1, B2, B3. cbn [andb]. apply in_app_iff. destruct H as [-> | (B4 & -> & H)]; [left; now left |].
      right. rewrite B4. rewrite String.eqb_refl. apply in_app_iff. left. destruct H as [E | [E | []]]; subst s; cbn; tauto.
Qed.

Lemma result_lines : forall ok agent s c, In c (fst (result ok agent s)) -> In (Some c) (file_lines s (step_env (own s) (agent s))).
Proof.
  intros ok agent s c H. unfold result in H. destruct (shell_prefix (ok s) (file_lines s (step_env (own s) (agent s))) 0) as (rest & E).
  rewrite E. apply in_app_iff. left. now apply in_map.
Qed.

Lemma passed_iff : forall ok agent branch s, passed s (ci ok agent branch) <-> ran s (ci ok agent branch) /\ snd (result ok agent s) = true.
Proof.
  intros ok agent branch s. unfold passed, ran. split.
  - intros (cs & I). split; [eauto |]. apply ci_in in I. destruct I as [E _]. now rewrite <- E.
  - intros ((r & I) & P). apply ci_in in I as J. destruct J as [E _]. subst r. exists (fst (result ok agent s)).
    now rewrite <- P, <- surjective_pairing.
Qed.

Lemma passed_succeeded : forall ok agent branch s c, passed s (ci ok agent branch) ->
  In (Some c) (file_lines s (step_env (own s) (agent s))) -> succeeded ok s c (ci ok agent branch).
Proof.
  intros ok agent branch s c P I. apply passed_iff in P as (R & T). unfold result in T.
  apply shell_passed in T as (E & O). rewrite E in I. apply in_map_iff in I. destruct I as (d & D & I). injection D as ->.
  apply In_nth_error in I. destruct I as (n & N). destruct R as ((cs & b) & I).
  apply ci_in in I as J. destruct J as [J _]. exists cs, b, n. split; [assumption |].
  unfold result in J. rewrite <- J in *. cbn [fst] in *. split; [assumption |]. apply (O n c N).
Qed.

Definition quiet (ls : lines) : Prop := forall c, In (Some c) ls -> ~ publishes c.
Ltac quiet := let c := fresh in let I := fresh in let a := fresh in let E := fresh in
  intros c I; cbn in I; repeat (destruct I as [I | I]; [injection I as <-; intros (a & [E | E]); discriminate E |]); destruct I.
Lemma gcc_quiet : forall e, quiet (gcc_lines e). Proof. intros e. quiet. Qed.
Lemma clang_quiet : forall e, quiet (clang_lines e). Proof. intros e. quiet. Qed.
Lemma s32k_quiet : forall e, quiet (s32k_lines e). Proof. intros e. quiet. Qed.
Lemma board_quiet : quiet [Some [board_test]]. Proof. quiet. Qed.

Lemma published_only : forall ok agent branch, published (ci ok agent branch) ->
  branch = "master" /\ snd (result ok agent gcc) = true /\ snd (result ok agent clang) = true /\ snd (result ok agent s32k) = true /\
  snd (result ok agent board_test) = true.
Proof.
  intros ok agent branch (s & c & (cs & b & I & C) & P). apply ci_in in I. destruct I as [E H].
  assert (In c (fst (result ok agent s))) as C' by now rewrite <- E. apply result_lines in C'.
  destruct H as [[<- | [<- | [<- | []]]] | (B1 & B2 & B3 & [-> | (B4 & -> & _)])]; [exfalso.. | tauto].
  - exact (gcc_quiet _ c C' P).
  - exact (clang_quiet _ c C' P).
  - exact (s32k_quiet _ c C' P).
  - exact (board_quiet c C' P).
Qed.

(** What a command builds. *)
Lemma builds_cons : forall t w c, builds t (w :: c) -> (w = "--target" /\ exists b, c = t :: b) \/ builds t c.
Proof.
  intros t w c (a & b & E). destruct a as [| x a]; cbn [app] in E; injection E as -> E; [left; eauto | right; now exists a, b].
Qed.
Lemma builds_nil : forall t, ~ builds t [].
Proof. intros t (a & b & E). destruct a; discriminate E. Qed.

(** Takes a hypothesis [builds t c] for a given list of words apart. *)
Ltac words H :=
  match type of H with
  | builds _ (_ :: _) =>
      apply builds_cons in H; destruct H as [[? (? & ?)] | H]; [first [discriminate | subst; discriminate | idtac] | words H]
  | builds _ [] => destruct (builds_nil _ H)
  end.

Ltac no_dash := match goal with P : prefix "-" ?v = false, E : ?v = "--target" |- _ => rewrite E in P; discriminate P end.
Lemma build_target : forall e t t', prefix "-" (build_type e) = false -> t <> "--target" -> builds t (build e t') -> t = t'.
Proof.
  intros e t t' P N H. unfold build, word in H.
  destruct (String.eqb (build_type e) ""); cbn [app] in H; words H; try no_dash; congruence.
Qed.
Lemma build_all_target : forall e t, prefix "-" (build_type e) = false -> t <> "--target" -> builds t (build_all e) -> t = "all".
Proof.
  intros e t P N H. unfold build_all, build, word in H.
  destruct (String.eqb (build_type e) ""); cbn [app] in H; words H; try no_dash; congruence.
Qed.

Lemma type_no_dash : forall agent s, (forall v, agent s "CMAKE_BUILD_TYPE" = Some v -> prefix "-" v = false) ->
  prefix "-" (build_type (step_env (own s) (agent s))) = false.
Proof.
  intros agent s H. unfold build_type, default.
  assert (forall own, (forall p, In p own -> prefix "-" (snd p) = false) ->
    prefix "-" (match step_env own (agent s) "CMAKE_BUILD_TYPE" with Some v => v | None => "Debug" end) = false) as K.
  { intros l L. unfold step_env. destruct (find _ l) as [p |] eqn:F.
    - apply find_some in F. now apply L.
    - destruct (agent s "CMAKE_BUILD_TYPE") as [v |] eqn:A; [now apply H | reflexivity]. }
  apply K. intros p I. unfold own in I. destruct (find _ (List.concat pipeline)) as [st |] eqn:F; [| destruct I].
  apply find_some in F. destruct F as [F _]. cbn in F.
  repeat (destruct F as [<- | F]; [cbn in I; repeat (destruct I as [<- | I]; [reflexivity |]); destruct I |]). destruct F.
Qed.

Lemma build_no_jobs : forall e t, prefix "-" (build_type e) = false -> prefix "-j" t = false -> ~ several_jobs (build e t).
Proof.
  intros e t P T (w & I & J). unfold build, word in I.
  destruct (String.eqb (build_type e) ""); cbn in I; repeat (destruct I as [<- | I]; [try discriminate J |]);
    try destruct I; try congruence.
  destruct (build_type e) as [| c v]; [discriminate J |]. cbn [prefix] in P, J. destruct (Ascii.ascii_dec _ c); [| discriminate J].
  destruct v; discriminate P.
Qed.

Lemma gcc_coverage : forall ok e before c after, fst (shell ok 0 (gcc_lines e)) = before ++ c :: after -> builds "cov_all" c ->
  prefix "-" (build_type e) = false ->
  ~ several_jobs c /\ exists n d, nth_error before n = Some d /\ builds "clean" d /\ ok n d = true.
Proof.
  intros ok e before c after E B P. pose proof (shell_before ok (gcc_lines e) 0 before c after E) as O.
  destruct (shell_prefix ok (gcc_lines e) 0) as (rest & F). rewrite E, map_app in F. cbn [map] in F. rewrite <- app_assoc in F. cbn [app] in F.
  unfold gcc_lines in F. cbn [map] in F.
  assert (forall t, t <> "cov_all" -> ~ builds "cov_all" (build e t)) as Nb.
  { intros t Nt H. apply Nt. symmetry. apply (build_target e _ _ P); [discriminate | assumption]. }
  assert (~ builds "cov_all" (build_all e)) as Na.
  { intros H. apply build_all_target in H; [discriminate H | assumption | discriminate]. }
  destruct before as [| b0 before]; cbn [map app] in F; [injection F as <- _; exfalso; words B |]. injection F as <- F.
  destruct before as [| b1 before]; cbn [map app] in F; [injection F as <- _; exfalso; words B |]. injection F as <- F.
  destruct before as [| b2 before]; cbn [map app] in F; [injection F as <- _; exfalso; words B |]. injection F as <- F.
  destruct before as [| b3 before]; cbn [map app] in F; [injection F as <- _; exfalso; words B |]. injection F as <- F.
  destruct before as [| b4 before]; cbn [map app] in F; [injection F as <- _; exfalso; exact (Nb "clean" ltac:(discriminate) B) |]. injection F as <- F.
  assert (builds "clean" (build e "clean")) as Bc.
  { unfold build. eexists (_ ++ word _), []. rewrite <- app_assoc. reflexivity. }
  split; [| exists 4%nat, (build e "clean"); split; [reflexivity |]; split; [assumption |]; exact (O 4%nat _ eq_refl)].
  destruct before as [| b5 before]; cbn [map app] in F.
  { injection F as <- _. exfalso. apply builds_cons in B. destruct B as [[B _] | B]; [discriminate B |].
    apply builds_cons in B. destruct B as [[B _] | B]; [discriminate B |].
    apply builds_cons in B. destruct B as [[B _] | B]; [discriminate B |]. contradiction. }
  injection F as <- F.
  destruct before as [| b6 before]; cbn [map app] in F; [injection F as <- _; exfalso; words B |]. injection F as <- F.
  destruct before as [| b7 before]; cbn [map app] in F.
  { injection F as <- _. apply build_no_jobs; [assumption | reflexivity]. }
  injection F as <- F.
  destruct before as [| b8 before]; cbn [map app] in F; [injection F as <- _; exfalso; exact (Nb "docs" ltac:(discriminate) B) |].
  injection F as <- F.
  destruct before as [| b9 before]; cbn [map app] in F; [injection F as <- _; exfalso; words B |]. injection F as <- F.
  destruct before; discriminate F.
Qed.

Lemma build_builds : forall e t, builds t (build e t).
Proof.
  intros e t. exists (["cmake"; "--build"; "."; "--config"] ++ word (build_type e)), []. unfold build, word.
  destruct (String.eqb (build_type e) ""); reflexivity.
Qed.
Lemma build_all_builds : forall e, builds "all" (build_all e).
Proof.
  intros e. exists (["cmake"; "--build"; "."; "--config"] ++ word (build_type e)), ["--"; "-j" ++ jobs e]%string. unfold build_all, build, word.
  destruct (String.eqb (build_type e) ""); reflexivity.
Qed.
