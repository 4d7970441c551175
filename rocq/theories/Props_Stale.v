(** C166: a build leaves generated headers, and documentation, of the sources as they are. *)
From Coq Require Import Bool List Arith Lia.
From Verif Require Import StaleModel StaleSpec StaleProofs.
Import ListNotations.

(** The full claim: whatever was done to the sources and the build directory before, a build that succeeds leaves the right header for every
    definition and no others. It is false, in four ways. *)
Theorem C166_headers_refuted :
  ~ (forall g before, sensible g -> snd (act g Build (acts g before new_tree)) = true ->
      complete g (acts g (before ++ [Build]) new_tree) /\ no_others g (acts g (before ++ [Build]) new_tree)).
Proof.
  intros H. specialize (H sample [Edit 0 1; Edit 1 5; Configure; Build; Edit 2 3] sensible_sample eq_refl). destruct H as [H _].
  destruct (H 2 eq_refl (or_intror (or_intror (or_introl eq_refl)))) as (t & E). vm_compute in E. discriminate.
Qed.
Print Assumptions C166_headers_refuted.

(** A definition that was added has no header after a build that succeeds. *)
Theorem C166_added_refuted : exists before, snd (act sample Build (acts sample before new_tree)) = true /\
  accepts sample (files (acts sample before new_tree)) = true /\
  In 2 (present (acts sample before new_tree)) /\ headers (acts sample (before ++ [Build]) new_tree) 2 = None.
Proof. exists [Edit 0 1; Edit 1 5; Configure; Build; Edit 2 3]. vm_compute. auto 10. Qed.
Print Assumptions C166_added_refuted.

(** And once the added definition is used, an old definition, known to the build, keeps an outdated header. *)
Theorem C166_nested_refuted : exists before l, let s := acts sample before new_tree in let s' := acts sample (before ++ [Build]) new_tree in
  snd (act sample Build s) = true /\ accepts sample (files s') = true /\ listed s' = Some l /\ In 1 l /\ In 1 (present s') /\
  exists h t, headers s' 1 = Some (h, t) /\ h <> generate sample (files s') 1.
Proof.
  exists [Edit 0 1; Edit 1 5; Configure; Build; Edit 2 3; Edit 1 7; Build; Edit 2 4], [0; 1]. cbv zeta.
  repeat match goal with |- _ /\ _ => split end; try (vm_compute; auto; fail).
  exists 317, 7. split; [vm_compute; reflexivity |]. vm_compute. discriminate.
Qed.
Print Assumptions C166_nested_refuted.

(** A build can succeed with definitions that nnvg rejects. *)
Theorem C166_rejected_refuted : exists before, snd (act sample Build (acts sample before new_tree)) = true /\
  accepts sample (files (acts sample before new_tree)) = false.
Proof. exists [Edit 0 1; Edit 1 5; Configure; Edit 2 3; Edit 1 7; Build; Remove 2]. vm_compute. auto. Qed.
Print Assumptions C166_rejected_refuted.

(** The header of a definition that was removed remains, even if the build is configured again before it. *)
Theorem C166_removed_refuted : exists before, let s := acts sample before new_tree in
  snd (act sample Configure s) = true /\ snd (act sample Build (fst (act sample Configure s))) = true /\
  ~ no_others sample (acts sample (before ++ [Configure; Build]) new_tree).
Proof.
  exists [Edit 0 1; Edit 1 5; Edit 2 3; Configure; Build; Remove 2]. cbv zeta. repeat split; try (vm_compute; reflexivity).
  intros H. assert (N : ~ In 2 (present (acts sample ([Edit 0 1; Edit 1 5; Edit 2 3; Configure; Build; Remove 2] ++ [Configure; Build]) new_tree))).
  { vm_compute. intuition discriminate. }
  specialize (H 2 eq_refl N). vm_compute in H. discriminate.
Qed.
Print Assumptions C166_removed_refuted.

(** It is never deleted: whatever follows, as long as the definition is not written again, even "make clean" leaves its header. *)
Theorem C166_left_over : forall g before after d, let s := acts g before new_tree in
  ~ In d (present s) -> snd (act g Configure s) = true -> (forall v, ~ In (Edit d v) after) ->
  headers (acts g (before ++ Configure :: after) new_tree) d = headers s d.
Proof.
  intros g before after d s N C NE.
  assert (E : acts g (before ++ Configure :: after) new_tree = acts g after (fst (act g Configure s))).
  { unfold s. generalize new_tree. clear. induction before as [| a before IH]; intros s0; cbn [app acts]; [reflexivity | apply IH]. }
  rewrite E. cbn [act] in *. unfold configure in *.
  destruct (accepts g (view s) && existsb (is_definition g) (present s)); cbn [fst snd] in *; [| discriminate].
  rewrite leftover; [reflexivity | exact N | | exact NE]. cbn. intros l El. injection El as <-. exact N.
Qed.
Print Assumptions C166_left_over.
Example C166_left_over_case : let before := [Edit 0 1; Edit 1 5; Edit 2 3; Configure; Build; Remove 2] in
  let s := acts sample before new_tree in
  ~ In 2 (present s) /\ snd (act sample Configure s) = true /\ headers s 2 <> None /\
  headers (acts sample (before ++ Configure :: [Build; Clean; Build]) new_tree) 2 = headers s 2.
Proof. vm_compute. intuition discriminate. Qed.

(** What does hold: after any history, if all definitions and templates that are there were there when the build was last configured, and nnvg accepts them,
    a build that succeeds leaves the right header for each definition. *)
Theorem C166_headers_partial : forall g before l, sensible g ->
  let s := acts g before new_tree in
  listed s = Some l -> (forall f, In f (present s) -> In f l) -> accepts g (files s) = true ->
  snd (act g Build s) = true -> complete g (acts g (before ++ [Build]) new_tree).
Proof.
  intros g before l Se s L P Ac Ok d De Id.
  assert (E : acts g (before ++ [Build]) new_tree = fst (act g Build s)).
  { unfold s. generalize new_tree. clear. induction before as [| a before IH]; intros s0; cbn [app acts]; [reflexivity | apply IH]. }
  rewrite E in *. cbn [act] in *. destruct (build_keeps g s) as (E1 & E2 & _). rewrite E1 in Id.
  assert (Av : accepts g (view s) = true) by (rewrite <- Ac; apply (proj1 Se), view_spec).
  destruct (build_current g s l (okay_acts g before new_tree (okay_new g)) Se L P Av Ok d De Id) as (t & H). exists t. rewrite H. f_equal. f_equal.
  symmetry. apply (proj2 Se); [exact Av | |].
  - rewrite view_spec. unfold files. destruct (in_dec Nat.eq_dec d (present s)); [discriminate | contradiction].
  - intros f v V. rewrite view_spec in V. unfold files in *. rewrite E1, E2. exact V.
Qed.
Print Assumptions C166_headers_partial.
Example C166_headers_case : let before := [Edit 0 1; Edit 1 5; Edit 2 3; Configure; Build; Remove 2; Edit 2 8; Edit 1 7] in
  let s := acts sample before new_tree in
  sensible sample /\ listed s = Some [0; 1; 2] /\ (forall f, In f (present s) -> In f [0; 1; 2]) /\ accepts sample (files s) = true /\
  snd (act sample Build s) = true /\ headers s 1 = Some (15, 5) /\ headers (acts sample (before ++ [Build]) new_tree) 1 = Some (817, 9).
Proof. split; [exact sensible_sample |]. vm_compute. intuition. Qed.

(** So configuring before every build is enough, whatever happened before. *)
Theorem C166_configured_partial : forall g before, sensible g ->
  let s := acts g before new_tree in
  snd (act g Configure s) = true -> snd (act g Build (fst (act g Configure s))) = true ->
  complete g (acts g (before ++ [Configure; Build]) new_tree).
Proof.
  intros g before Se s C B.
  assert (E : acts g (before ++ [Configure]) new_tree = fst (act g Configure s)).
  { unfold s. generalize new_tree. clear. induction before as [| a before IH]; intros s0; cbn [app acts]; [reflexivity | apply IH]. }
  replace (before ++ [Configure; Build]) with ((before ++ [Configure]) ++ [Build]) by (rewrite <- app_assoc; reflexivity).
  cbn [act] in C, E. unfold configure in C, E.
  destruct (accepts g (view s)) eqn:A; cbn [andb] in C, E; [| discriminate].
  destruct (existsb (is_definition g) (present s)) eqn:X; cbn [snd fst] in C, E; [| discriminate].
  apply (C166_headers_partial g (before ++ [Configure]) (present s) Se).
  - rewrite E. reflexivity.
  - rewrite E. cbn. auto.
  - rewrite E. rewrite <- A. apply (proj1 Se). intros f. symmetry. apply (view_spec s).
  - rewrite E. cbn [act] in B. unfold configure in B. rewrite A, X in B. exact B.
Qed.
Print Assumptions C166_configured_partial.
Example C166_configured_case : let before := [Edit 0 1; Edit 1 5; Configure; Build; Edit 2 3; Edit 1 7; Build; Edit 2 4] in
  let s := acts sample before new_tree in
  snd (act sample Configure s) = true /\ snd (act sample Build (fst (act sample Configure s))) = true /\
  headers s 1 = Some (317, 7) /\ headers (acts sample (before ++ [Configure; Build]) new_tree) 1 = Some (417, 10).
Proof. vm_compute. auto. Qed.

(** A definition that is missing makes the build fail until the build is configured again; nothing is written. *)
Theorem C166_missing : forall g s l f, listed s = Some l -> In f l -> ~ In f (present s) ->
  snd (act g Build s) = false /\ headers (fst (act g Build s)) = headers s.
Proof.
  intros g s l f L I' N. cbn [act]. unfold build. rewrite L.
  assert (E : forallb (is_present s) l = false).
  { destruct (forallb (is_present s) l) eqn:E; [| reflexivity]. rewrite forallb_forall in E. apply E, is_present_iff in I'. contradiction. }
  rewrite E. split; reflexivity.
Qed.
Print Assumptions C166_missing.
Example C166_missing_case : let s := acts sample [Edit 0 1; Edit 1 5; Edit 2 3; Configure; Build; Remove 2] new_tree in
  listed s = Some [0; 1; 2] /\ In 2 [0; 1; 2] /\ ~ In 2 (present s).
Proof. vm_compute. intuition discriminate. Qed.

(** What a build that succeeds says: the build was configured, all files known then are still there, and if a header changed nnvg accepts the files. *)
Theorem C166_success : forall g s, snd (act g Build s) = true ->
  (exists l, listed s = Some l /\ forall f, In f l -> In f (present s)) /\
  (forall d, headers (fst (act g Build s)) d <> headers s d -> accepts g (view s) = true).
Proof.
  intros g s. cbn [act]. unfold build. destruct (listed s) as [l |]; [| discriminate].
  destruct (forallb (is_present s) l) eqn:E; cbn [negb]; [| discriminate]. intros B. split.
  - exists l. split; [reflexivity |]. intros f F. rewrite forallb_forall in E. apply is_present_iff, E, F.
  - intros d. destruct (out_of_date g s l); [destruct (accepts g (view s)); [reflexivity | discriminate] |]. cbn. congruence.
Qed.
Print Assumptions C166_success.
Example C166_success_case : let s := acts sample [Edit 0 1; Edit 1 5; Configure] new_tree in
  snd (act sample Build s) = true /\ headers (fst (act sample Build s)) 1 <> headers s 1 /\ snd (act sample Build new_tree) = false.
Proof. vm_compute. split; [reflexivity | split; [discriminate | reflexivity]]. Qed.

(** When a build succeeds: always, if all files known when it was configured are there and nnvg accepts the files; never, if a known definition has no
    header yet and nnvg rejects them. *)
Theorem C166_succeeds : forall g s l, listed s = Some l -> (forall f, In f l -> In f (present s)) ->
  (accepts g (view s) = true -> snd (act g Build s) = true) /\
  (accepts g (view s) = false -> (exists d, In d l /\ is_definition g d = true /\ headers s d = None) -> snd (act g Build s) = false).
Proof.
  intros g s l L P. cbn [act]. unfold build. rewrite L.
  assert (E : forallb (is_present s) l = true) by (apply forallb_forall; intros f F; apply is_present_iff, P, F).
  rewrite E. cbn [negb]. split.
  - intros A. rewrite A. destruct (out_of_date g s l); reflexivity.
  - intros A (d & D1 & D2 & D3). rewrite A. assert (O : out_of_date g s l = true).
    { unfold out_of_date. apply orb_true_iff. left. apply existsb_exists. exists d. split; [apply filter_In; auto | rewrite D3; reflexivity]. }
    rewrite O. reflexivity.
Qed.
Print Assumptions C166_succeeds.
Example C166_succeeds_case : let s := acts sample [Edit 0 1; Edit 1 5; Configure; Edit 1 7] new_tree in
  listed s = Some [0; 1] /\ (forall f, In f [0; 1] -> In f (present s)) /\ accepts sample (view s) = false /\ headers s 1 = None /\
  accepts sample (view (acts sample [Edit 0 1; Edit 1 5; Configure] new_tree)) = true.
Proof. vm_compute. intuition. Qed.

(** ** Documentation *)

(** The full claim: "make docs" leaves the documentation of the sources as they are. It is false, even if the build is configured again first. *)
Theorem C166_docs_refuted : exists before number, let s := happen (before ++ [Setup number; Docs]) (new_site 1) in
  exists old t, html s = Some (old, t) /\ old <> source s.
Proof. exists [Setup 4; Docs; Change 2], 4, 1, 2. vm_compute. split; [reflexivity | discriminate]. Qed.
Print Assumptions C166_docs_refuted.

(** It is true after a change of the build number. *)
Theorem C166_docs_partial : forall v before number, let s := happen before (new_site v) in
  (forall t, config s <> Some (number, t)) ->
  exists t, html (happen (before ++ [Setup number; Docs]) (new_site v)) = Some (source s, t).
Proof.
  intros v before b s N.
  assert (E : happen (before ++ [Setup b; Docs]) (new_site v) = happens Docs (happens (Setup b) s)).
  { unfold s. generalize (new_site v). clear. induction before as [| a before IH]; intros s0; cbn [app happen]; [reflexivity | apply IH]. }
  rewrite E. pose proof (sane_happen before (new_site v) (sane_new v)) as Sa. fold s in Sa.
  assert (C : config (happens (Setup b) s) = Some (b, S (now s))).
  { unfold happens. cbn. destruct (config s) as [[b' t'] |] eqn:Cs; [| reflexivity]. destruct (Nat.eqb_spec b' b) as [Hb | Hb]; [| reflexivity].
    rewrite Hb in N. exfalso. exact (N t' eq_refl). }
  unfold happens at 1. rewrite C. change (html (happens (Setup b) s)) with (html s). change (source (happens (Setup b) s)) with (source s).
  destruct (html s) as [[w th] |] eqn:H; [| cbn; eauto].
  pose proof (s_html s Sa w th H) as Hl. destruct (Nat.ltb_spec th (S (now s))); [cbn; eauto | lia].
Qed.
Print Assumptions C166_docs_partial.
Example C166_docs_case : let s := happen [Setup 4; Docs; Change 2] (new_site 1) in
  (forall t, config s <> Some (5, t)) /\ html s = Some (1, 2) /\ html (happen ([Setup 4; Docs; Change 2] ++ [Setup 5; Docs]) (new_site 1)) = Some (2, 5).
Proof. vm_compute. split; [discriminate | auto]. Qed.

(** Without one, and without "make clean", the documentation never changes again, whatever is done to the sources and however often it is made. *)
Theorem C166_docs_never : forall v before number after, quiet number after ->
  (exists t, config (happen before (new_site v)) = Some (number, t)) ->
  let s := happen (before ++ [Docs]) (new_site v) in
  html (happen (before ++ Docs :: after) (new_site v)) = html s /\ html s <> None.
Proof.
  intros v before b after Q (tc & C) s.
  assert (E : forall l, happen (before ++ Docs :: l) (new_site v) = happen l (happens Docs (happen before (new_site v)))).
  { intros l. generalize (new_site v). clear. induction before as [| a before IH]; intros s0; cbn [app happen]; [reflexivity | apply IH]. }
  assert (Es : s = happens Docs (happen before (new_site v))) by (unfold s; apply (E [])).
  pose proof (sane_happen before (new_site v) (sane_new v)) as Sa. rewrite E, Es. clear s Es E. set (s := happen before (new_site v)) in *.
  pose proof (s_config s Sa _ _ C) as Hc.
  assert (K : exists w th, html (happens Docs s) = Some (w, th) /\ tc <= th /\ config (happens Docs s) = Some (b, tc)).
  { unfold happens. rewrite C. destruct (html s) as [[w th] |] eqn:H.
    - destruct (Nat.ltb_spec th tc); cbn; [exists (source s), (S (now s)); repeat split; lia | exists w, th; auto].
    - cbn. exists (source s), (S (now s)). repeat split; lia. }
  destruct K as (w & th & K1 & K2 & K3). rewrite (quiet_same b tc w th after _ K3 K1 K2 Q), K1. split; [reflexivity | discriminate].
Qed.
Print Assumptions C166_docs_never.
Example C166_docs_never_case : let after := [Change 2; Setup 4; Docs; Change 3; Docs] in
  quiet 4 after /\ (exists t, config (happen [Setup 4] (new_site 1)) = Some (4, t)) /\
  html (happen ([Setup 4] ++ Docs :: after) (new_site 1)) = Some (1, 2) /\ source (happen ([Setup 4] ++ Docs :: after) (new_site 1)) = 3.
Proof.
  cbv zeta. repeat match goal with |- _ /\ _ => split end; try (vm_compute; eauto; fail).
  intros e. cbn. intros [<- | [<- | [<- | [<- | [<- | []]]]]]; auto.
Qed.

(** After "make clean" it is of the sources as they are. *)
Theorem C166_docs_clean_partial : forall v before, let s := happen before (new_site v) in config s <> None ->
  exists t, html (happen (before ++ [Wipe; Docs]) (new_site v)) = Some (source s, t).
Proof.
  intros v before s N.
  assert (E : happen (before ++ [Wipe; Docs]) (new_site v) = happens Docs (happens Wipe s)).
  { unfold s. generalize (new_site v). clear. induction before as [| a before IH]; intros s0; cbn [app happen]; [reflexivity | apply IH]. }
  rewrite E. unfold happens at 1. change (config (happens Wipe s)) with (config s). destruct (config s) as [[b tc] |]; [| congruence]. cbn. eauto.
Qed.
Print Assumptions C166_docs_clean_partial.
Example C166_docs_clean_case : let before := [Setup 4; Docs; Change 2; Docs] in
  config (happen before (new_site 1)) <> None /\ html (happen before (new_site 1)) = Some (1, 2) /\
  html (happen (before ++ [Wipe; Docs]) (new_site 1)) = Some (2, 6).
Proof. vm_compute. split; [discriminate | auto]. Qed.
