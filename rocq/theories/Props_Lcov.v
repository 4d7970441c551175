(** C159, C160: coverage of the native tests. *)
From Coq Require Import ZArith Bool List Lia.
From Verif Require Import LcovModel LcovSpec LcovProofs.
Import ListNotations.
Open Scope Z_scope.

(** C159. Full statement: for every order in which make with any number of jobs runs the recipes,
      schedule ts cs -> In t ts -> reports (filtered (executes hits under cs s) t) under (hits t),
    and the overall file reports their sum. With one job it is so, whatever was in the directory before: *)
Theorem C159_one_job : forall hits under ts s t, NoDup ts -> In t ts ->
  reports (filtered (executes hits under (one_by_one ts) s) t) under (hits t).
Proof. exact one_by_one_file. Qed.
Print Assumptions C159_one_job.
Theorem C159_one_job_all : forall hits under ts s, NoDup ts ->
  reports (all_info ts (executes hits under (one_by_one ts) s)) under (fun l => fold_right (fun t n => hits t l + n) 0 ts).
Proof. intros. apply all_reports. intros t I. now apply one_by_one_file. Qed.
Print Assumptions C159_one_job_all.

(** With two jobs the coverage of a test can be lost from all files, as another recipe clears the counters: *)
Theorem C159_jobs_lose_refuted : exists ts cs hits under s l i, NoDup ts /\ schedule ts cs /\ In 0%nat ts /\ hits 0%nat l = 1 /\ under l = true /\
  all_info ts (executes hits under cs s) = Some i /\ i l = 0.
Proof.
  exists [0%nat; 1%nat], [Zero 0; Baseline 0; Run 0; Zero 1; Capture 0; Combine 0; Extract 0; Baseline 1; Run 1; Capture 1; Combine 1; Extract 1],
    (fun t l => if Nat.eqb t l then 1 else 0), (fun _ => true), (Files (fun _ => 0) None (fun _ => None) (fun _ => None) (fun _ => None)), 0%nat.
  eexists. split; [repeat constructor; cbn; intuition discriminate |]. split.
  - intros [| [| t]]; reflexivity.
  - repeat split; now left.
Qed.
Print Assumptions C159_jobs_lose_refuted.

(** Exactly: a test's file reports what the tests executed that ran, to their end, since the counters were last cleared before it was
    captured. *)
Theorem C159_exact_partial : forall hits under ts cs s t before after, schedule ts cs -> In t ts -> cs = before ++ Capture t :: after ->
  reports (filtered (executes hits under cs s) t) under (together hits (since_zero before [])).
Proof. exact file_exact. Qed.
Print Assumptions C159_exact_partial.

(** Two tests whose runs overlap: the first is credited with both. *)
Example C159_case :
  let cs := [Zero 0; Zero 1; Baseline 0; Baseline 1; Run 1; Run 0; Capture 0; Combine 0; Capture 1; Extract 0; Combine 1; Extract 1]%nat in
  let hits := fun t l => if Nat.eqb t l then 3 else 0 in
  let s := executes hits (fun l => Nat.leb l 1) cs (Files (fun _ => 7) None (fun _ => None) (fun _ => None) (fun _ => None)) in
  schedule [0%nat; 1%nat] cs /\ since_zero (firstn 6 cs) [] = [0; 1]%nat /\
  reports (filtered s 0%nat) (fun l => Nat.leb l 1) (fun l => if Nat.leb l 1 then 3 else 0).
Proof.
  cbv zeta. split; [intros [| [| t]]; reflexivity |]. split; [reflexivity |].
  eexists. split; [reflexivity |]. intros [| [| l]]; reflexivity.
Qed.

(** C160. Full statement: after any changes and builds that end with a build of cov_all,
      reports (filtered (dir s) t) under (current es hits t)   and   reports (cov_file s) under (total ts (current es hits)).
    The files of the single tests are so: *)
Theorem C160_each_test : forall under ts hits es t, NoDup ts -> In t ts ->
  reports (filtered (dir (acts under ts (es ++ [Make]) (new_tree hits))) t) under (current es hits t).
Proof.
  intros under ts hits es t N I. rewrite acts_app. cbn [acts act].
  exact (stale_file under ts _ _ _ t N (acts_inv under ts es (new_tree hits) hits None N (new_inv under ts hits)) I).
Qed.
Print Assumptions C160_each_test.

(** And the overall file after clean: *)
Theorem C160_after_clean : forall under ts hits es, NoDup ts ->
  reports (cov_file (acts under ts (es ++ [Clean; Make]) (new_tree hits))) under (total ts (current es hits)).
Proof.
  intros under ts hits es N. replace (es ++ [Clean; Make]) with ((es ++ [Clean]) ++ Make :: []) by now rewrite <- app_assoc.
  replace (current es hits) with (current (es ++ [Clean]) hits) by (rewrite current_app; reflexivity).
  apply overall; [assumption | | intros []]. right. exists es, []. split; [reflexivity | intros []].
Qed.
Print Assumptions C160_after_clean.

(** Without it the overall file, which is the one that is reported, is not: a test that now executes nothing is still reported. *)
Theorem C160_overall_refuted : exists under ts hits es l i, NoDup ts /\ under l = true /\
  cov_file (acts under ts (es ++ [Make]) (new_tree hits)) = Some i /\ i l = 1 /\ total ts (current es hits) l = 0.
Proof.
  exists (fun _ => true), [0%nat], (fun _ _ => 1), [Make; Edit 0 (fun _ => 0)], 0%nat. eexists.
  split; [repeat constructor; intros [] |]. repeat split.
Qed.
Print Assumptions C160_overall_refuted.

(** Exactly: it reports the tests as they were at the first build since the outputs were removed, whatever is changed and built later. *)
Theorem C160_overall_partial : forall under ts hits before after, NoDup ts -> nothing_built before -> ~ In Clean after ->
  reports (cov_file (acts under ts (before ++ Make :: after) (new_tree hits))) under (total ts (current before hits)).
Proof. exact overall. Qed.
Print Assumptions C160_overall_partial.
Theorem C160_overall_iff_partial : forall under ts hits before after, NoDup ts -> nothing_built before -> ~ In Clean after ->
  reports (cov_file (acts under ts (before ++ Make :: after) (new_tree hits))) under (total ts (current (before ++ Make :: after) hits)) <->
  forall l, under l = true -> total ts (current (before ++ Make :: after) hits) l = total ts (current before hits) l.
Proof.
  intros under ts hits before after N B A. destruct (overall under ts hits before after N B A) as (i & E & R). split.
  - intros (j & F & Q) l U. rewrite E in F. injection F as <-. pose proof (R l) as H1. pose proof (Q l) as H2. rewrite U in *.
    now rewrite <- H1, <- H2.
  - intros H. exists i. split; [assumption |]. intros l. rewrite R. destruct (under l) eqn:U; [| reflexivity]. symmetry. now apply H.
Qed.
Print Assumptions C160_overall_iff_partial.

(** Two tests, of which one is changed after a build: its own file follows, and so does the overall file after clean. *)
Example C160_case :
  let es := [Make; Edit 1 (fun l => if Nat.eqb l 1 then 5 else 0)] in
  let hits := fun t l => if Nat.eqb t l then 3 else 0 in
  let at_end := fun es l => match cov_file (acts (fun l => Nat.leb l 1) [0; 1]%nat es (new_tree hits)) with Some i => i l | None => -1 end in
  nothing_built [] /\ ~ In Clean [Edit 1 (fun l => if Nat.eqb l 1 then 5 else 0); Make] /\
  map (at_end (es ++ [Make])) [0; 1; 2]%nat = [3; 3; 0] /\ map (at_end (es ++ [Clean; Make])) [0; 1; 2]%nat = [3; 5; 0] /\
  reports (filtered (dir (acts (fun l => Nat.leb l 1) [0; 1]%nat (es ++ [Make]) (new_tree hits))) 1%nat) (fun l => Nat.leb l 1)
          (fun l => if Nat.eqb l 1 then 5 else 0).
Proof.
  cbv zeta. split; [left; intros [] |]. split; [intros [E | [E | []]]; discriminate E |].
  split; [reflexivity |]. split; [reflexivity |].
  eexists. split; [reflexivity |]. intros [| [| l]]; reflexivity.
Qed.
