(** Proofs about the folder for external projects. *)
From Coq Require Import Bool List Arith Lia.
From Verif Require Import ExtModel ExtSpec.
Import ListNotations.

Lemma has_In p l : has p l = true <-> In p l.
Proof.
  unfold has. rewrite existsb_exists. split.
  - intros (x & I & E). apply Nat.eqb_eq in E. now subst.
  - intros I. exists p. split; [exact I | apply Nat.eqb_refl].
Qed.

Lemma after_snoc h e : after (h ++ [e]) = fst (step (after h) e).
Proof. unfold after. now rewrite fold_left_app. Qed.

Lemma story_snoc h e : story_of (h ++ [e]) = tell (story_of h) e.
Proof. unfold story_of. now rewrite fold_left_app. Qed.

(** What the environment is, by its founder. *)
Definition environment_of (x : machine * list nat) : venv :=
  let (w, r) := x in
  match interrupted w with
  | Some InVirtualenv => Venv false []
  | Some InPip => if virtualenv_works w then Venv true (if network w then filter (unpacked w) r else []) else Venv false []
  | _ => if virtualenv_works w then Venv true (if network w then r else []) else Venv false []
  end.

Lemma environment_installed x p : In p (packages (environment_of x)) <-> installed x p.
Proof.
  destruct x as [w r]. unfold environment_of, installed.
  destruct (interrupted w) as [[]|]; destruct (virtualenv_works w), (network w); cbn [packages]; rewrite ?filter_In; cbn [In]; intuition congruence.
Qed.

Lemma installed_interpreter x p : installed x p -> interpreter (environment_of x) = true.
Proof.
  destruct x as [w r]. unfold installed, environment_of. intros (W & N & I & P). rewrite W.
  destruct (interrupted w) as [[]|]; cbn; tauto.
Qed.

Lemma make_environment_spec w r :
  has_virtualenv w = true ->
  make_environment w r =
    (if makes_directory w then Some (environment_of (w, r)) else None,
     match interrupted w with Some InVirtualenv | Some InPip => false | _ => true end).
Proof.
  intros V. unfold make_environment, makes_directory, environment_of. rewrite V.
  destruct (interrupted w) as [[]|]; destruct (virtualenv_works w), (virtualenv_leaves w); reflexivity.
Qed.

(** The folder after a history. *)
Record agrees (s : place) (t : story) : Prop := {
  a_reqs : requirements s = reqs t;
  a_env : pyenv (ext s) = option_map environment_of (founder t);
  a_types : made_for (types (ext s)) = first_generator t;
  a_gtest : made_for (gtest (ext s)) = None \/ made_for (gtest (ext s)) = first_generator t;
  a_caches : forall b, found_nnvg (caches s b) = Some Local -> found_virtualenv (caches s b) = true
}.

Lemma find_virtualenv_spec w t found :
  find_virtualenv w (reqs t) found (option_map environment_of (founder t)) =
  (option_map environment_of (founder (tell t (Run 0 w))),
   negb (match founder t with None => has_virtualenv w | Some _ => false end &&
         match interrupted w with Some InVirtualenv | Some InPip => true | _ => false end)).
Proof.
  unfold find_virtualenv. destruct t as [fo g r]. cbn [founder reqs tell option_map].
  destruct fo as [x|]; cbn [option_map founder].
  - destruct (found || has_virtualenv w); reflexivity.
  - destruct (has_virtualenv w) eqn:V.
    + rewrite orb_true_r. rewrite (make_environment_spec _ _ V).
      destruct (makes_directory w); cbn [option_map]; destruct (interrupted w) as [[]|]; reflexivity.
    + rewrite orb_false_r. assert (M : makes_directory w = false) by (unfold makes_directory; now rewrite V).
      rewrite M. destruct found; reflexivity.
Qed.

Lemma founder_tell t b w : founder (tell t (Run b w)) = founder (tell t (Run 0 w)).
Proof. reflexivity. Qed.

Lemma fetch_made_for w cut d :
  made_for (fst (fetch w cut d)) = match made_for d with None => Some (generator w) | Some g => Some g end.
Proof.
  unfold fetch. destruct (made_for d) as [g|] eqn:M; [destruct (g =? generator w)|]; cbn; congruence.
Qed.

Lemma fetch_ok w cut d :
  snd (fetch w cut d) = true <->
  (made_for d = None \/ made_for d = Some (generator w)) /\ (cloned d = true \/ network w = true) /\ cut = false.
Proof.
  unfold fetch. destruct (made_for d) as [g|] eqn:M.
  - destruct (g =? generator w) eqn:E; cbn.
    + apply Nat.eqb_eq in E. subst. destruct (cloned d), (network w), cut; cbn; intuition congruence.
    + apply Nat.eqb_neq in E. split; [discriminate|]. intros [[?|Q] _]; [discriminate | injection Q as Q; congruence].
  - cbn. destruct (cloned d), (network w), cut; cbn; intuition congruence.
Qed.

Lemma step_agrees s t e : agrees s t -> agrees (fst (step s e)) (tell t e).
Proof.
  intros A. destruct A as [R En T G C]. destruct e as [b w | b | | r]; cbn [step tell].
  - unfold configure. rewrite R, En, find_virtualenv_spec.
    set (goes := negb _).
    destruct goes eqn:Go.
    + apply negb_true_iff in Go.
      destruct (fetch w (stops w InTypes) (types (ext s))) as [t' k] eqn:F1.
      pose proof (fetch_made_for w (stops w InTypes) (types (ext s))) as M1. rewrite F1 in M1. cbn [fst] in M1. rewrite T in M1.
      assert (Ty : made_for t' = first_generator (tell t (Run b w))) by (cbn [tell first_generator]; rewrite Go; exact M1).
      destruct k.
      * pose proof (proj1 (fetch_ok w (stops w InTypes) (types (ext s)))) as K1. rewrite F1 in K1. specialize (K1 eq_refl).
        destruct K1 as ([K1 | K1] & _ & _); rewrite T in K1.
        all: destruct (fetch w (stops w InGtest) (gtest (ext s))) as [g' k] eqn:F2;
          pose proof (fetch_made_for w (stops w InGtest) (gtest (ext s))) as M2; rewrite F2 in M2; cbn [fst] in M2.
        all: assert (Gt : made_for g' = first_generator (tell t (Run b w)))
          by (rewrite <- Ty, M1, M2; destruct G as [G | G]; rewrite G, ?K1; reflexivity).
        all: destruct k; [destruct (stops w Later); [| destruct (negb (other_tools w))] |].
        all: split; cbn [fst requirements ext pyenv types gtest caches];
          [reflexivity | reflexivity | exact Ty | right; exact Gt |].
        all: intros x; destruct (x =? b); [| apply C].
        all: try apply C.
        all: try (destruct (stops w InGtest); [apply C|]).
        all: cbn [found_nnvg found_virtualenv]; intros L; try (apply C in L; rewrite L; reflexivity).
        all: unfold find_nnvg in L; destruct (found_nnvg (caches s b)) as [sc|] eqn:Fn;
          [ injection L as ->; apply C in Fn; rewrite Fn; reflexivity |].
        all: destruct (found_virtualenv (caches s b) || has_virtualenv w); [reflexivity|]; cbn [andb] in L;
          destruct (has_nnvg w); discriminate.
      * split; cbn [fst requirements ext pyenv types gtest caches]; [reflexivity | reflexivity | exact Ty | |].
        -- destruct G as [G | G]; [left; exact G |]. rewrite G. cbn [first_generator]. rewrite Go. destruct (first_generator t); [right | left]; reflexivity.
        -- intros x. destruct (x =? b); [|apply C]. destruct (stops w InTypes); [apply C|].
           cbn [found_nnvg found_virtualenv]. intros L. apply C in L. now rewrite L.
    + apply negb_false_iff in Go. split; cbn [fst requirements ext pyenv types gtest caches]; [reflexivity | reflexivity | | |].
      * cbn [tell first_generator]. rewrite Go. exact T.
      * cbn [tell first_generator]. rewrite Go. exact G.
      * intros x. destruct (x =? b) eqn:E; [|apply C]. apply Nat.eqb_eq in E. subst. apply C.
  - split; cbn; try assumption. intros x. destruct (x =? b); [discriminate | apply C].
  - split; cbn; try assumption; auto.
  - split; cbn; try assumption; auto.
Qed.

Lemma history_agrees h : agrees (after h) (story_of h).
Proof.
  induction h as [|e h IH] using rev_ind.
  - split; cbn; auto. discriminate.
  - rewrite after_snoc, story_snoc. now apply step_agrees.
Qed.

Lemma after_reqs h : requirements (after h) = reqs (story_of h).
Proof. exact (a_reqs _ _ (history_agrees h)). Qed.

Lemma available_founder h p : available h p <-> exists x, founder (story_of h) = Some x /\ installed x p.
Proof.
  unfold available. rewrite (a_env _ _ (history_agrees h)). split.
  - intros (v & E & I). destruct (founder (story_of h)) as [x|]; [|discriminate]. injection E as <-.
    exists x. split; [reflexivity|]. now apply environment_installed.
  - intros (x & E & I). rewrite E. exists (environment_of x). split; [reflexivity|]. now apply environment_installed.
Qed.

(** A global script in a cache was found by an earlier run there. *)
Lemma cache_global h b :
  found_nnvg (caches (after h) b) = Some Global ->
  exists h1 w0 h2, h = h1 ++ Run b w0 :: h2 /\ ~ In (DeleteBuild b) h2 /\ has_nnvg w0 = true /\
    ~ (has_virtualenv w0 = true /\ available (h1 ++ [Run b w0]) nunavut).
Proof.
  induction h as [|e h IH] using rev_ind; [discriminate|].
  rewrite after_snoc. intros H.
  assert (K : (found_nnvg (caches (after h) b) = Some Global /\ e <> DeleteBuild b) \/ exists w0, e = Run b w0 /\ has_nnvg w0 = true /\
    ~ (has_virtualenv w0 = true /\ available (h ++ [Run b w0]) nunavut)).
  { destruct e as [b' w | b' | | r]; cbn [step] in H.
    - destruct (configure w (requirements (after h)) (ext (after h)) (caches (after h) b')) as [[f c] ok] eqn:Cf.
      cbn [fst caches] in H. destruct (b =? b') eqn:E; [|left; split; [exact H | discriminate]]. apply Nat.eqb_eq in E. subst b'.
      assert (Af : after (h ++ [Run b w]) = Place f (fun x => if x =? b then c else caches (after h) x) (requirements (after h))).
      { rewrite after_snoc. cbn [step]. now rewrite Cf. }
      assert (D : found_nnvg (caches (after h) b) = Some Global \/
                  has_nnvg w = true /\ ~ (has_virtualenv w = true /\ available (h ++ [Run b w]) nunavut)).
      { unfold configure in Cf.
        destruct (find_virtualenv _ _ _ _) as [e k]. destruct k; [|injection Cf as _ <- _; now left].
        destruct (fetch w _ (types _)) as [t k]. destruct k; [|injection Cf as _ <- _; destruct (stops w InTypes); now left].
        destruct (fetch w _ (gtest _)) as [g k]. destruct k; [|injection Cf as _ <- _; destruct (stops w InGtest); now left].
        destruct (stops w Later); [injection Cf as _ <- _; now left|].
        destruct (negb (other_tools w)); [injection Cf as _ <- _; now left|].
        injection Cf as <- <- _. cbn [found_nnvg] in H. unfold find_nnvg in H.
        destruct (found_nnvg (caches (after h) b)); [left; exact H|].
        destruct (_ && _) eqn:Ch; [discriminate|]. destruct (has_nnvg w) eqn:N; [|discriminate]. right. split; [reflexivity|].
        intros (V & v & Ev & Iv). rewrite Af in Ev. cbn [ext pyenv] in Ev. subst e. rewrite V, orb_true_r in Ch. cbn [andb] in Ch.
        apply has_In in Iv. congruence. }
      destruct D as [D | D]; [left; split; [exact D | discriminate] | right; exists w; split; [reflexivity | exact D]].
    - cbn [fst caches] in H. destruct (b =? b') eqn:E; [discriminate|]. left. split; [exact H|].
      apply Nat.eqb_neq in E. congruence.
    - left. split; [exact H | discriminate].
    - left. split; [exact H | discriminate]. }
  destruct K as [(K & D) | (w0 & -> & N)].
  - destruct (IH K) as (h1 & w0 & h2 & -> & I & N). exists h1, w0, (h2 ++ [e]).
    split; [now rewrite <- app_assoc | split; [|exact N]].
    intros Q. apply in_app_or in Q. destruct Q as [Q | [Q | []]]; [exact (I Q) | exact (D Q)].
  - exists h, w0, []. split; [reflexivity | split; [intros [] | exact N]].
Qed.

(** Clones stay. *)
Definition complete (s : place) : Prop := cloned (types (ext s)) = true /\ cloned (gtest (ext s)) = true.

(** When a run succeeds on a machine with all programs. *)
Definition conditions (h : list event) (b : nat) (w : machine) : Prop :=
  (exists x, founder (story_of (h ++ [Run b w])) = Some x /\ installed x nunavut) /\
  (first_generator (story_of h) = None \/ first_generator (story_of h) = Some (generator w)) /\
  (network w = true \/ complete (after h)).

Lemma ready_both h b w :
  ready w ->
  (succeeds h b w -> conditions h b w) /\ (nnvg_stays h b w -> conditions h b w -> succeeds h b w).
Proof.
  intros (V & W & O & I). unfold conditions, succeeds. cbn [step].
  rewrite story_snoc. pose proof (history_agrees h) as [R En T G C].
  pose proof (find_virtualenv_spec w (story_of h) (found_virtualenv (caches (after h) b))) as Fv.
  rewrite founder_tell.
  destruct (configure w (requirements (after h)) (ext (after h)) (caches (after h) b)) as [[f c] ok] eqn:Cf.
  cbn [snd]. unfold configure in Cf. rewrite R, En, Fv, I in Cf. rewrite andb_false_r in Cf. cbn [negb] in Cf.
  assert (S1 : stops w InTypes = false) by (unfold stops; now rewrite I).
  assert (S2 : stops w InGtest = false) by (unfold stops; now rewrite I).
  assert (S3 : stops w Later = false) by (unfold stops; now rewrite I).
  rewrite S1, S2, S3, V, O, orb_true_r in Cf. cbn [negb] in Cf.
  set (e := option_map environment_of (founder (tell (story_of h) (Run 0 w)))) in *.
  assert (Ee : (exists x, founder (tell (story_of h) (Run 0 w)) = Some x /\ installed x nunavut) <->
               exists v, e = Some v /\ interpreter v = true /\ has nunavut (packages v) = true).
  { unfold e. split.
    - intros (x & E & In1). rewrite E. exists (environment_of x). split; [reflexivity|]. split.
      + exact (installed_interpreter x _ In1).
      + apply has_In. now apply environment_installed.
    - intros (v & E & _ & P). destruct (founder (tell (story_of h) (Run 0 w))) as [x|]; [|discriminate]. injection E as <-.
      exists x. split; [reflexivity|]. apply environment_installed. now apply has_In. }
  rewrite Ee. clear Ee.
  destruct (fetch w false (types (ext (after h)))) as [t k1] eqn:F1.
  destruct (fetch w false (gtest (ext (after h)))) as [g k2] eqn:F2.
  pose proof (fetch_ok w false (types (ext (after h)))) as K1. rewrite F1 in K1. cbn [snd] in K1. rewrite T in K1.
  pose proof (fetch_ok w false (gtest (ext (after h)))) as K2. rewrite F2 in K2. cbn [snd] in K2.
  assert (GG : (first_generator (story_of h) = None \/ first_generator (story_of h) = Some (generator w)) ->
               made_for (gtest (ext (after h))) = None \/ made_for (gtest (ext (after h))) = Some (generator w)).
  { intros Q. destruct G as [G | G]; [left; exact G|]. rewrite G. exact Q. }
  unfold complete.
  destruct k1.
  - destruct (proj1 K1 eq_refl) as (Q & N1 & _).
    destruct k2.
    + destruct (proj1 K2 eq_refl) as (_ & N2 & _). injection Cf as _ _ <-.
      split.
      * intros N. split; [|split; [exact Q |
          destruct N1 as [N1 | N1]; [destruct N2 as [N2 | N2]; [right; split; assumption | left; exact N2] | left; exact N1]]].
        unfold nnvg_runs in N. destruct (find_nnvg _ _ _ _) as [sc|]; [|discriminate].
        apply andb_true_iff in N. destruct N as [_ N]. destruct e as [v|]; [|discriminate].
        apply andb_true_iff in N. now exists v.
      * intros St ((v & -> & In1 & P) & _ & _). unfold nnvg_runs, find_nnvg. rewrite P. cbn [andb].
        destruct (found_nnvg (caches (after h) b)) as [sc|] eqn:Fn; cbn [script_there]; rewrite In1, ?P; cbn [andb]; [|reflexivity].
        destruct sc; cbn [script_there]; rewrite ?P; cbn [andb]; [reflexivity|].
        destruct (cache_global h b Fn) as (h1 & w0 & h2 & E0 & D0 & N0 & A0). rewrite (St h1 w0 h2 E0 D0 N0 A0). reflexivity.
    + injection Cf as _ _ <-. split; [discriminate|]. intros _ (_ & Q' & N). apply K2. split; [apply GG; exact Q|].
      split; [destruct N as [N | (_ & N)]; [right | left]; exact N | reflexivity].
  - injection Cf as _ _ <-. split; [discriminate|]. intros _ (_ & Q' & N). apply K1. split; [exact Q'|].
    split; [destruct N as [N | (N & _)]; [right | left]; exact N | reflexivity].
Qed.

Lemma succeeds_conditions h b w : ready w -> succeeds h b w -> conditions h b w.
Proof. intros R. exact (proj1 (ready_both h b w R)). Qed.

Lemma conditions_succeeds h b w : ready w -> nnvg_stays h b w -> conditions h b w -> succeeds h b w.
Proof. intros R. exact (proj2 (ready_both h b w R)). Qed.

(** The founder of the environment after one more run with all programs. *)
Lemma founder_ready h b w :
  ready w -> founder (story_of (h ++ [Run b w])) = match founder (story_of h) with Some x => Some x | None => Some (w, reqs (story_of h)) end.
Proof.
  intros (V & W & _ & I). rewrite story_snoc. cbn [tell founder]. destruct (founder (story_of h)); [reflexivity|].
  unfold makes_directory. rewrite V, W, I. cbn. now rewrite orb_true_r.
Qed.

(** What stays while the folder is not deleted. *)
Lemma story_keeps h h' x :
  ~ In DeleteFolder h' -> founder (story_of h) = Some x -> founder (story_of (h ++ h')) = Some x.
Proof.
  induction h' as [|e h' IH] using rev_ind; intros D F; [now rewrite app_nil_r|].
  rewrite app_assoc, story_snoc. assert (F' : founder (story_of (h ++ h')) = Some x).
  { apply IH; [|exact F]. intros Q. apply D. apply in_or_app. now left. }
  destruct e; cbn [tell founder]; try rewrite F'; try reflexivity.
  exfalso. apply D. apply in_or_app. right. now left.
Qed.

Lemma generator_keeps h h' g :
  ~ In DeleteFolder h' -> first_generator (story_of h) = Some g -> first_generator (story_of (h ++ h')) = Some g.
Proof.
  induction h' as [|e h' IH] using rev_ind; intros D F; [now rewrite app_nil_r|].
  rewrite app_assoc, story_snoc. assert (F' : first_generator (story_of (h ++ h')) = Some g).
  { apply IH; [|exact F]. intros Q. apply D. apply in_or_app. now left. }
  destruct e; cbn [tell first_generator]; try rewrite F'; try reflexivity.
  - now destruct (_ && _).
  - exfalso. apply D. apply in_or_app. right. now left.
Qed.

Lemma fetch_keeps w cut d : cloned d = true -> cloned (fst (fetch w cut d)) = true.
Proof.
  intros C. unfold fetch. destruct (made_for d) as [g|]; [destruct (g =? generator w)|]; cbn; rewrite ?C; reflexivity.
Qed.

Lemma fetch_cloned w cut d : snd (fetch w cut d) = true -> cloned (fst (fetch w cut d)) = true.
Proof.
  unfold fetch. destruct (made_for d) as [g|]; [destruct (g =? generator w)|]; cbn; try discriminate;
    intros H; apply andb_true_iff in H; exact (proj1 H).
Qed.

Lemma complete_step s e : e <> DeleteFolder -> complete s -> complete (fst (step s e)).
Proof.
  intros D (C1 & C2). destruct e as [b w | b | | r]; try contradiction; try (split; assumption).
  cbn [step]. destruct (configure w (requirements s) (ext s) (caches s b)) as [[f c] ok] eqn:Cf. cbn [fst].
  unfold configure in Cf. destruct (find_virtualenv _ _ _ _) as [e k].
  destruct k; [|injection Cf as <- _ _; split; assumption].
  pose proof (fetch_keeps w (stops w InTypes) _ C1) as K1. destruct (fetch w (stops w InTypes) (types (ext s))) as [t k1].
  pose proof (fetch_keeps w (stops w InGtest) _ C2) as K2. destruct (fetch w (stops w InGtest) (gtest (ext s))) as [g k2].
  cbn [fst] in K1, K2.
  destruct k1; [|injection Cf as <- _ _; split; assumption].
  destruct k2; [|injection Cf as <- _ _; split; assumption].
  destruct (stops w Later); [injection Cf as <- _ _; split; assumption|].
  destruct (negb (other_tools w)); injection Cf as <- _ _; split; assumption.
Qed.

Lemma complete_keeps h h' : ~ In DeleteFolder h' -> complete (after h) -> complete (after (h ++ h')).
Proof.
  induction h' as [|e h' IH] using rev_ind; intros D C; [now rewrite app_nil_r|].
  rewrite app_assoc, after_snoc. apply complete_step.
  - intros ->. apply D. apply in_or_app. right. now left.
  - apply IH; [|exact C]. intros Q. apply D. apply in_or_app. now left.
Qed.

Lemma success_complete h b w : succeeds h b w -> complete (after (h ++ [Run b w])).
Proof.
  unfold succeeds. rewrite after_snoc. cbn [step].
  destruct (configure w (requirements (after h)) (ext (after h)) (caches (after h) b)) as [[f c] ok] eqn:Cf.
  cbn [fst snd]. intros ->. unfold configure in Cf. destruct (find_virtualenv _ _ _ _) as [e k]. destruct k; [|discriminate].
  pose proof (fetch_cloned w (stops w InTypes) (types (ext (after h)))) as K1.
  destruct (fetch w (stops w InTypes) (types (ext (after h)))) as [t k1].
  pose proof (fetch_cloned w (stops w InGtest) (gtest (ext (after h)))) as K2.
  destruct (fetch w (stops w InGtest) (gtest (ext (after h)))) as [g k2]. cbn [fst snd] in K1, K2.
  destruct k1; [|discriminate]. destruct k2; [|discriminate].
  destruct (stops w Later); [discriminate|]. destruct (negb (other_tools w)); [discriminate|].
  injection Cf as <- _ _. split; [apply K1 | apply K2]; reflexivity.
Qed.

(** A run with all programs settles the generator. *)
Lemma generator_ready h b w :
  ready w -> succeeds h b w -> first_generator (story_of (h ++ [Run b w])) = Some (generator w).
Proof.
  intros R Su. destruct (succeeds_conditions h b w R Su) as (_ & G & _). destruct R as (_ & _ & _ & I).
  rewrite story_snoc. cbn [tell first_generator]. rewrite I, andb_false_r. destruct G as [-> | ->]; reflexivity.
Qed.

(** A run that succeeds has found everything. *)
Lemma success_sound h b w :
  succeeds h b w ->
  other_tools w = true /\ complete (after (h ++ [Run b w])) /\
  (available (h ++ [Run b w]) nunavut \/ has_virtualenv w = false /\ has_nnvg w = true).
Proof.
  intros S. pose proof (success_complete h b w S) as Cm.
  enough (X : other_tools w = true /\ (available (h ++ [Run b w]) nunavut \/ has_virtualenv w = false /\ has_nnvg w = true))
    by (destruct X as (X1 & X2); split; [exact X1 | split; [exact Cm | exact X2]]).
  clear Cm. revert S. unfold succeeds.
  unfold available. rewrite after_snoc. cbn [step].
  destruct (configure w (requirements (after h)) (ext (after h)) (caches (after h) b)) as [[f c] ok] eqn:Cf.
  cbn [fst snd ext]. intros ->. unfold configure in Cf. destruct (find_virtualenv _ _ _ _) as [e k]. destruct k; [|discriminate].
  destruct (fetch w (stops w InTypes) (types (ext (after h)))) as [t k1]. destruct k1; [|discriminate].
  destruct (fetch w (stops w InGtest) (gtest (ext (after h)))) as [g k2]. destruct k2; [|discriminate].
  destruct (stops w Later); [discriminate|]. destruct (other_tools w); [|discriminate]. cbn [negb] in Cf.
  injection Cf as <- _ N. cbn [pyenv]. split; [reflexivity|].
  unfold nnvg_runs in N. destruct (find_nnvg _ _ _ _) as [sc|]; [|discriminate]. apply andb_true_iff in N. destruct N as [_ N].
  destruct (found_virtualenv (caches (after h) b) || has_virtualenv w) eqn:V.
  - left. destruct e as [v|]; [|discriminate]. apply andb_true_iff in N. exists v. split; [reflexivity|]. apply has_In. apply N.
  - right. apply orb_false_iff in V. split; [apply V | exact N].
Qed.

(** A clone comes from the network. *)
Lemma fetch_network w cut d : cloned (fst (fetch w cut d)) = true -> cloned d = true \/ (network w = true /\ cut = false).
Proof.
  unfold fetch. destruct (made_for d) as [g|]; [destruct (g =? generator w)|]; cbn; destruct (cloned d), (network w), cut; cbn; auto; discriminate.
Qed.

Lemma step_network s b w :
  (cloned (types (ext (fst (step s (Run b w))))) = true -> cloned (types (ext s)) = true \/ (network w = true /\ interrupted w <> Some InTypes)) /\
  (cloned (gtest (ext (fst (step s (Run b w))))) = true -> cloned (gtest (ext s)) = true \/ (network w = true /\ interrupted w <> Some InGtest)).
Proof.
  cbn [step]. destruct (configure w (requirements s) (ext s) (caches s b)) as [[f c] ok] eqn:Cf. cbn [fst ext].
  assert (S1 : stops w InTypes = false -> interrupted w <> Some InTypes) by (unfold stops; intros Q E; rewrite E in Q; discriminate).
  assert (S2 : stops w InGtest = false -> interrupted w <> Some InGtest) by (unfold stops; intros Q E; rewrite E in Q; discriminate).
  unfold configure in Cf. destruct (find_virtualenv _ _ _ _) as [e k].
  destruct k; [|injection Cf as <- _ _; split; intros Q; left; exact Q].
  pose proof (fetch_network w (stops w InTypes) (types (ext s))) as K1. destruct (fetch w (stops w InTypes) (types (ext s))) as [t k1].
  pose proof (fetch_network w (stops w InGtest) (gtest (ext s))) as K2. destruct (fetch w (stops w InGtest) (gtest (ext s))) as [g k2].
  cbn [fst] in K1, K2.
  assert (L1 : cloned t = true -> cloned (types (ext s)) = true \/ (network w = true /\ interrupted w <> Some InTypes)).
  { intros Q. destruct (K1 Q) as [A | (A & B)]; [left; exact A | right; split; [exact A | exact (S1 B)]]. }
  assert (L2 : cloned g = true -> cloned (gtest (ext s)) = true \/ (network w = true /\ interrupted w <> Some InGtest)).
  { intros Q. destruct (K2 Q) as [A | (A & B)]; [left; exact A | right; split; [exact A | exact (S2 B)]]. }
  destruct k1; [|injection Cf as <- _ _; split; [exact L1 | intros Q; left; exact Q]].
  destruct k2; [|injection Cf as <- _ _; split; assumption].
  destruct (stops w Later); [injection Cf as <- _ _; split; assumption|].
  destruct (negb (other_tools w)); injection Cf as <- _ _; split; assumption.
Qed.

Lemma cloned_network (part : folder -> download) p :
  part empty_folder = Download None false ->
  (forall s b w, cloned (part (ext (fst (step s (Run b w))))) = true -> cloned (part (ext s)) = true \/ (network w = true /\ interrupted w <> Some p)) ->
  forall h, cloned (part (ext (after h))) = true ->
  exists h1 b w h2, h = h1 ++ Run b w :: h2 /\ ~ In DeleteFolder h2 /\ network w = true /\ interrupted w <> Some p.
Proof.
  intros E0 St h. induction h as [|e h IH] using rev_ind; [cbn; rewrite E0; discriminate|].
  rewrite after_snoc. intros Q.
  assert (X : e <> DeleteFolder -> cloned (part (ext (after h))) = true ->
    exists h1 b w h2, h ++ [e] = h1 ++ Run b w :: h2 /\ ~ In DeleteFolder h2 /\ network w = true /\ interrupted w <> Some p).
  { intros D C. destruct (IH C) as (h1 & b & w & h2 & -> & D2 & N). exists h1, b, w, (h2 ++ [e]).
    split; [now rewrite <- app_assoc|]. split; [|exact N]. intros B. apply in_app_or in B. destruct B as [B | [B | []]]; [exact (D2 B) | exact (D B)]. }
  destruct e as [b w | b | | r].
  - apply St in Q. destruct Q as [Q | Q]; [apply X; [discriminate | exact Q]|].
    exists h, b, w, []. split; [reflexivity|]. split; [intros [] | exact Q].
  - apply X; [discriminate | exact Q].
  - cbn in Q. rewrite E0 in Q. discriminate.
  - apply X; [discriminate | exact Q].
Qed.

Lemma interrupted_fails h b w p :
  interrupted w = Some p ->
  p = InTypes \/ p = InGtest \/ p = Later \/ (has_virtualenv w = true /\ pyenv (ext (after h)) = None) -> ~ succeeds h b w.
Proof.
  intros I P. unfold succeeds. cbn [step].
  destruct (configure w (requirements (after h)) (ext (after h)) (caches (after h) b)) as [[f c] ok] eqn:Cf. cbn [snd]. intros ->.
  unfold configure in Cf. destruct (find_virtualenv _ _ _ _) as [e k] eqn:V. destruct k; [|discriminate].
  pose proof (fetch_ok w (stops w InTypes) (types (ext (after h)))) as K1.
  destruct (fetch w (stops w InTypes) (types (ext (after h)))) as [t k1]. cbn [snd] in K1.
  pose proof (fetch_ok w (stops w InGtest) (gtest (ext (after h)))) as K2.
  destruct (fetch w (stops w InGtest) (gtest (ext (after h)))) as [g k2]. cbn [snd] in K2.
  destruct k1; [|discriminate]. destruct k2; [|discriminate].
  destruct (proj1 K1 eq_refl) as (_ & _ & C1). destruct (proj1 K2 eq_refl) as (_ & _ & C2). unfold stops in C1, C2, Cf. rewrite I in C1, C2, Cf.
  destruct p; try discriminate.
  all: destruct P as [P | [P | [P | (P & N)]]]; try discriminate P.
  all: unfold find_virtualenv, make_environment in V; rewrite N, P, I, orb_true_r in V; discriminate V.
Qed.
