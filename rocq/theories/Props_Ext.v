(** Running CMake again, with and without a network. *)
From Coq Require Import Bool List Arith.
From Verif Require Import ExtModel ExtSpec ExtProofs.
Import ListNotations.

(** Machines for the cases below: everything installed but a global nnvg; with or without a network, for a generator. *)
Definition desk (net : bool) (g : nat) : machine := Machine true true true net true false g None (fun _ => false).

(** C170 full statement, first part (false): with the programs the build asks for and a network, CMake succeeds, whatever was tried before.

    One run without a network leaves an environment without nunavut behind, which is never completed. *)
Theorem C170_online_refuted :
  ~ (forall h b w, ready w -> network w = true -> required h nunavut -> nnvg_stays h b w -> succeeds h b w).
Proof.
  intros A. specialize (A [Run 0 (desk false 0)] 0 (desk true 0)).
  assert (S : succeeds [Run 0 (desk false 0)] 0 (desk true 0)).
  { apply A; [repeat split | reflexivity | now left |].
    intros h1 w0 h2 E _ N _. destruct h1 as [|e [|? ?]]; [|discriminate|discriminate]. injection E as <- _. discriminate. }
  discriminate S.
Qed.
Print Assumptions C170_online_refuted.

(** Once that has happened no run succeeds any more, in any build directory, until the folder is deleted. *)
Theorem C170_never_again :
  forall h b0 w0, founder (story_of h) = None -> ready w0 -> network w0 = false ->
  forall h', ~ In DeleteFolder h' -> forall b w, ready w -> ~ succeeds (h ++ Run b0 w0 :: h') b w.
Proof.
  intros h b0 w0 F R0 N0 h' D b w R S. destruct (succeeds_conditions _ _ _ R S) as ((x & E & I) & _ & _).
  assert (K : founder (story_of ((h ++ [Run b0 w0]) ++ (h' ++ [Run b w]))) = Some (w0, reqs (story_of h))).
  { apply story_keeps.
    - intros Q. apply in_app_or in Q. destruct Q as [Q | [Q | []]]; [exact (D Q) | discriminate].
    - rewrite founder_ready by exact R0. now rewrite F. }
  replace ((h ++ [Run b0 w0]) ++ h' ++ [Run b w]) with ((h ++ Run b0 w0 :: h') ++ [Run b w]) in K
    by (rewrite <- !app_assoc; reflexivity).
  rewrite K in E. injection E as <-. destruct I as (_ & I & _). congruence.
Qed.
Print Assumptions C170_never_again.

Example C170_never_again_case :
  founder (story_of []) = None /\ ready (desk false 0) /\ ~ In DeleteFolder [DeleteBuild 0; Run 1 (desk true 0)] /\ ready (desk true 0).
Proof. repeat split. intros [Q | [Q | []]]; discriminate. Qed.

(** What is true: with a network, CMake succeeds exactly when the run that made the environment installed nunavut (this run, if there is no
    environment), and the generator is that of the first run. *)
Theorem C170_online_iff_partial :
  forall h b w, ready w -> network w = true -> nnvg_stays h b w ->
  (succeeds h b w <->
   match founder (story_of h) with None => required h nunavut | Some x => installed x nunavut end /\
   match first_generator (story_of h) with None => True | Some g => g = generator w end).
Proof.
  intros h b w R N St.
  assert (C : conditions h b w <->
    match founder (story_of h) with None => required h nunavut | Some x => installed x nunavut end /\
    match first_generator (story_of h) with None => True | Some g => g = generator w end).
  { unfold conditions. rewrite founder_ready by exact R. unfold required. rewrite after_reqs.
    destruct R as (V & W & O & I). split.
    - intros ((x & E & P) & G & _). split.
      + destruct (founder (story_of h)); injection E as <-; [exact P|]. exact (proj1 (proj2 (proj2 P))).
      + destruct (first_generator (story_of h)); [destruct G as [G | G]; [discriminate | injection G as G; exact G] | exact Logic.I].
    - intros (P & G). split; [|split; [|left; exact N]].
      + destruct (founder (story_of h)) as [x|]; [exists x; split; [reflexivity | exact P]|].
        exists (w, reqs (story_of h)). split; [reflexivity|]. repeat split; try assumption. now rewrite I.
      + destruct (first_generator (story_of h)); [right; now subst | left; reflexivity]. }
  rewrite <- C. split; [apply succeeds_conditions; exact R | apply conditions_succeeds; assumption].
Qed.
Print Assumptions C170_online_iff_partial.

Lemma stays_none h b w : (forall w0, In (Run b w0) h -> has_nnvg w0 = false) -> nnvg_stays h b w.
Proof.
  intros A h1 w0 h2 -> _ N _. rewrite (A w0) in N; [discriminate|]. apply in_or_app. right. now left.
Qed.

Example C170_online_iff_case :
  (ready (desk true 0) /\ network (desk true 0) = true /\ nnvg_stays [Run 0 (desk true 0)] 0 (desk true 0)) /\
  succeeds [Run 0 (desk true 0)] 0 (desk true 0) /\ ~ succeeds [Run 0 (desk true 0)] 0 (desk true 1).
Proof.
  split; [split; [repeat split | split; [reflexivity|]] | split; [reflexivity | discriminate]].
  apply stays_none. intros w0 [E | []]. injection E as <-. reflexivity.
Qed.

(** The condition on a global nnvg is needed: a build directory that has found one once asks for it for ever, even when it has its own. *)
Definition old_desk : machine := Machine false true true true true true 0 None (fun _ => false).
Theorem C170_global_nnvg_refuted :
  ~ (forall h b w, ready w -> network w = true -> available (h ++ [Run b w]) nunavut ->
     match first_generator (story_of h) with None => True | Some g => g = generator w end -> succeeds h b w).
Proof.
  intros A. assert (S : succeeds [Run 0 old_desk] 0 (desk true 0)).
  { apply A; [repeat split | reflexivity | | reflexivity]. eexists. split; [reflexivity|]. now left. }
  discriminate S.
Qed.
Print Assumptions C170_global_nnvg_refuted.

(** No run succeeds by mistake: the sources, the other programs and nunavut are there, in the environment if virtualenv is used. *)
Theorem C170_success_means :
  forall h b w, succeeds h b w ->
  other_tools w = true /\ sources_there (h ++ [Run b w]) /\
  (available (h ++ [Run b w]) nunavut \/ has_virtualenv w = false /\ has_nnvg w = true).
Proof. exact success_sound. Qed.
Print Assumptions C170_success_means.

Example C170_success_means_case : succeeds [] 0 (desk true 0) /\ succeeds [] 0 old_desk.
Proof. split; reflexivity. Qed.

(** The remedy: delete the folder and the build directory. *)
Theorem C170_start_again :
  forall h b w, ready w -> network w = true -> required h nunavut ->
  let h' := h ++ [DeleteFolder; DeleteBuild b] in
  succeeds h' b w /\ forall p, required h p -> available (h' ++ [Run b w]) p.
Proof.
  intros h b w R N Q h'.
  assert (E : story_of h' = Story None None (reqs (story_of h))).
  { unfold h'. change [DeleteFolder; DeleteBuild b] with ([DeleteFolder] ++ [DeleteBuild b]). rewrite app_assoc, !story_snoc. reflexivity. }
  assert (Q' : forall p, required h p -> required h' p).
  { unfold required. intros p. now rewrite !after_reqs, E. }
  split.
  - apply C170_online_iff_partial; [exact R | exact N | |].
    + intros h1 w0 h2 X D _ _. exfalso. apply D. unfold h' in X.
      assert (L : last (h1 ++ Run b w0 :: h2) DeleteFolder = DeleteBuild b).
      { rewrite <- X. change [DeleteFolder; DeleteBuild b] with ([DeleteFolder] ++ [DeleteBuild b]). rewrite app_assoc. apply last_last. }
      destruct h2 as [|e h2 _] using rev_ind.
      * rewrite last_last in L. discriminate.
      * change (h1 ++ Run b w0 :: h2 ++ [e]) with (h1 ++ (Run b w0 :: h2) ++ [e]) in L. rewrite app_assoc, last_last in L.
        rewrite L. apply in_or_app. right. now left.
    + rewrite E. cbn. split; [apply Q'; exact Q | exact Logic.I].
  - intros p P. apply available_founder. rewrite founder_ready by exact R. rewrite E. cbn [founder reqs].
    exists (w, reqs (story_of h)). split; [reflexivity|]. destruct R as (V & W & O & I). cbn. rewrite I.
    repeat split; try assumption. unfold required in P. now rewrite after_reqs in P.
Qed.
Print Assumptions C170_start_again.

Example C170_start_again_case :
  ready (desk true 1) /\ required [Run 0 (desk false 0); Require [0; 5]] nunavut /\
  available ([Run 0 (desk false 0); Require [0; 5]] ++ [DeleteFolder; DeleteBuild 0] ++ [Run 0 (desk true 1)]) 5.
Proof.
  split; [repeat split | split; [now left |]]. eexists. split; [reflexivity|]. cbn. auto.
Qed.

(** C170 full statement, second part (false): when CMake has succeeded, the environment has every package of requirements.txt. *)
Theorem C170_packages_refuted :
  ~ (forall h b w p, ready w -> network w = true -> succeeds h b w -> required h p -> available (h ++ [Run b w]) p).
Proof.
  intros A. destruct (A [Run 0 (desk true 0); Require [0; 5]] 0 (desk true 0) 5) as (v & E & I);
    [repeat split | reflexivity | reflexivity | right; now left |].
  injection E as <-. destruct I as [I | []]. discriminate.
Qed.
Print Assumptions C170_packages_refuted.

(** What is true: it has the packages that the run that made it installed. *)
Theorem C170_packages_iff_partial :
  forall h b w p, ready w ->
  (available (h ++ [Run b w]) p <->
   match founder (story_of h) with None => network w = true /\ required h p | Some x => installed x p end).
Proof.
  intros h b w p R. rewrite available_founder, founder_ready by exact R. unfold required. rewrite after_reqs.
  destruct R as (V & W & O & I). destruct (founder (story_of h)) as [x|].
  - split; [intros (y & E & P); injection E as <-; exact P | intros P; exists x; split; [reflexivity | exact P]].
  - split.
    + intros (y & E & P). injection E as <-. cbn in P. tauto.
    + intros (N & P). eexists. split; [reflexivity|]. cbn. rewrite I. tauto.
Qed.
Print Assumptions C170_packages_iff_partial.

Example C170_packages_iff_case :
  ready (desk true 0) /\ available ([Require [0; 5]] ++ [Run 0 (desk true 0)]) 5 /\
  ~ available ([Run 1 (desk true 0); Require [0; 5]] ++ [Run 0 (desk true 0)]) 5.
Proof.
  split; [repeat split | split].
  - eexists. split; [reflexivity|]. cbn. auto.
  - intros (v & E & I). injection E as <-. destruct I as [I | []]. discriminate.
Qed.

(** C170 full statement, third part (false): after one run that succeeded, later runs need no network. *)
Theorem C170_offline_refuted :
  ~ (forall h b w h' b' w', ready w -> succeeds h b w -> ~ In DeleteFolder h' -> ready w' ->
     nnvg_stays (h ++ Run b w :: h') b' w' -> succeeds (h ++ Run b w :: h') b' w').
Proof.
  intros A. assert (S : succeeds ([] ++ [Run 0 (desk true 0)]) 1 (desk true 1)).
  { apply A; [repeat split | reflexivity | intros [] | repeat split |].
    apply stays_none. intros w0 [E | []]. discriminate. }
  discriminate S.
Qed.
Print Assumptions C170_offline_refuted.

(** What is true: they need none exactly when they are for the same generator. *)
Theorem C170_offline_iff_partial :
  forall h b w h' b' w', ready w -> succeeds h b w -> ~ In DeleteFolder h' -> ready w' ->
  nnvg_stays (h ++ Run b w :: h') b' w' ->
  (succeeds (h ++ Run b w :: h') b' w' <-> generator w' = generator w).
Proof.
  intros h b w h' b' w' R S D R' St.
  assert (G : first_generator (story_of (h ++ Run b w :: h')) = Some (generator w)).
  { change (Run b w :: h') with ([Run b w] ++ h'). rewrite app_assoc. apply generator_keeps; [exact D|].
    now apply generator_ready. }
  assert (Cm : complete (after (h ++ Run b w :: h'))).
  { change (Run b w :: h') with ([Run b w] ++ h'). rewrite app_assoc. apply complete_keeps; [exact D|].
    now apply success_complete. }
  destruct (succeeds_conditions h b w R S) as ((x & F & I) & _ & _).
  assert (F' : founder (story_of (h ++ Run b w :: h')) = Some x).
  { change (Run b w :: h') with ([Run b w] ++ h'). rewrite app_assoc. now apply story_keeps. }
  split.
  - intros S'. destruct (succeeds_conditions _ _ _ R' S') as (_ & [Q | Q] & _); rewrite G in Q; [discriminate|].
    injection Q as Q. now symmetry.
  - intros Q. apply conditions_succeeds; [exact R' | exact St|].
    split; [|split; [right; now rewrite G, Q | right; exact Cm]].
    exists x. rewrite founder_ready by exact R'. now rewrite F'.
Qed.
Print Assumptions C170_offline_iff_partial.

Example C170_offline_iff_case :
  (ready (desk true 0) /\ succeeds [] 0 (desk true 0) /\ ~ In DeleteFolder [DeleteBuild 0] /\ ready (desk false 0)) /\
  succeeds ([] ++ Run 0 (desk true 0) :: [DeleteBuild 0]) 0 (desk false 0).
Proof.
  split; [split; [repeat split | split; [reflexivity | split; [| repeat split]]] | reflexivity]. intros [Q | []]. discriminate.
Qed.

(** The sources were downloaded: nothing is taken for googletest or for the definitions that a run with the network did not fetch since the folder
    was last deleted, and not a run that was interrupted in doing so. *)
Theorem C170_downloaded :
  forall h,
  (cloned (types (ext (after h))) = true ->
   exists h1 b w h2, h = h1 ++ Run b w :: h2 /\ ~ In DeleteFolder h2 /\ network w = true /\ interrupted w <> Some InTypes) /\
  (cloned (gtest (ext (after h))) = true ->
   exists h1 b w h2, h = h1 ++ Run b w :: h2 /\ ~ In DeleteFolder h2 /\ network w = true /\ interrupted w <> Some InGtest).
Proof.
  intros h. split; [apply (cloned_network types InTypes) | apply (cloned_network gtest InGtest)]; try reflexivity; intros s b w; apply step_network.
Qed.
Print Assumptions C170_downloaded.

Example C170_downloaded_case : sources_there [Run 0 (desk true 0)] /\ ~ sources_there [Run 0 (desk true 0); DeleteFolder].
Proof. split; [split; reflexivity | intros (H & _); discriminate H]. Qed.

(** A run that is interrupted does not succeed: within virtualenv or pip if it comes to run them, within the downloads, or later. *)
Theorem C170_interrupted :
  forall h b w p, interrupted w = Some p ->
  p = InTypes \/ p = InGtest \/ p = Later \/ (has_virtualenv w = true /\ pyenv (ext (after h)) = None) -> ~ succeeds h b w.
Proof. exact interrupted_fails. Qed.
Print Assumptions C170_interrupted.

Example C170_interrupted_case :
  let cut p := Machine true true false true true false 0 (Some p) (fun _ => true) in
  ~ succeeds [] 0 (cut InPip) /\ ~ succeeds [Run 0 (desk true 0)] 0 (cut Later) /\ succeeds [Run 0 (desk true 0)] 0 (desk true 0).
Proof. split; [|split]; vm_compute; [discriminate | discriminate | reflexivity]. Qed.
