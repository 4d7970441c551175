(** Proofs about StaleModel. *)
From Coq Require Import Bool List Arith Lia.
From Verif Require Import StaleModel StaleSpec.
Import ListNotations.

Lemma is_present_iff s f : is_present s f = true <-> In f (present s).
Proof.
  unfold is_present. rewrite existsb_exists. split.
  - intros (x & H & E). apply Nat.eqb_eq in E. subst. exact H.
  - intros H. exists f. split; [exact H | apply Nat.eqb_refl].
Qed.

(** What holds after any history. *)
Record okay (g : nnvg) (s : tree) : Prop := Okay {
  o_mtime : forall f, mtime s f <= clock s;
  o_time : forall d h t, headers s d = Some (h, t) -> t <= clock s;
  o_from : forall d h t, headers s d = Some (h, t) -> exists fs, h = generate g fs d /\
    forall f, In f (present s) -> mtime s f <= t -> fs f = Some (version s f);
  o_later : forall d e h t h' t', In e (present s) -> is_definition g e = true ->
    headers s d = Some (h, t) -> headers s e = Some (h', t') -> mtime s e <= t -> t <= t'
}.

Lemma okay_new g : okay g new_tree.
Proof. split; cbn; intros; try discriminate; lia. Qed.

Lemma okay_tick g s l : okay g s -> okay g (Tree (S (clock s)) (present s) (version s) (mtime s) l (headers s)).
Proof.
  intros [A B C D]. split; cbn.
  - intros f. specialize (A f). lia.
  - intros d h t E. specialize (B _ _ _ E). lia.
  - exact C.
  - exact D.
Qed.

Lemma okay_act g a s : okay g s -> okay g (fst (act g a s)).
Proof.
  intros O. destruct a as [f v | f | | | ]; cbn [act].
  - destruct O as [A B C D].
    assert (P : forall x, In x (if is_present s f then present s else present s ++ [f]) -> x <> f -> In x (present s)).
    { intros x I' N. destruct (is_present s f); [exact I' |]. apply in_app_or in I'. destruct I' as [I' | [I' | []]]; [exact I' | congruence]. }
    split; cbn.
    + intros x. destruct (x =? f); [lia | specialize (A x); lia].
    + intros d h t E. specialize (B _ _ _ E). lia.
    + intros d h t E. destruct (C _ _ _ E) as (fs & G & H). exists fs. split; [exact G |]. intros x I' M.
      specialize (B _ _ _ E). destruct (Nat.eqb_spec x f) as [F | F]; [lia |]. apply H; [| exact M]. exact (P x I' F).
    + intros d e h t h' t' Ie De E E' M. pose proof (B _ _ _ E). destruct (Nat.eqb_spec e f) as [F | F]; [lia |].
      exact (D d e h t h' t' (P e Ie F) De E E' M).
  - destruct O as [A B C D]. split; cbn.
    + intros x. specialize (A x). lia.
    + intros d h t E. specialize (B _ _ _ E). lia.
    + intros d h t E. destruct (C _ _ _ E) as (fs & G & H). exists fs. split; [exact G |]. intros x I'. apply filter_In in I'. apply H, I'.
    + intros d e h t h' t' Ie. apply filter_In in Ie. exact (D d e h t h' t' (proj1 Ie)).
  - unfold configure. destruct (accepts g (view s) && existsb (is_definition g) (present s)); cbn [fst]; apply okay_tick, O.
  - unfold build. destruct (listed s) as [l |]; [| cbn [fst]; apply okay_tick, O].
    destruct (negb (forallb (is_present s) l)); [cbn [fst]; apply okay_tick, O |].
    destruct (out_of_date g s l); [| cbn [fst]; apply okay_tick, O].
    destruct (accepts g (view s)); [| cbn [fst]; apply okay_tick, O]. cbn [fst].
    destruct O as [A B C D]. split; cbn [clock present version mtime headers].
    + intros x. specialize (A x). lia.
    + intros d h t E. destruct (is_definition g d && is_present s d); [injection E as _ E; lia |]. specialize (B _ _ _ E). lia.
    + intros d h t E. destruct (is_definition g d && is_present s d).
      * injection E as E _. exists (view s). split; [symmetry; exact E |]. intros f I' _. unfold view. rewrite (proj2 (is_present_iff s f) I'). reflexivity.
      * exact (C _ _ _ E).
    + intros d e h t h' t' Ie De E E' M. rewrite De, (proj2 (is_present_iff s e) Ie) in E'. cbn [andb] in E'. injection E' as _ E'.
      destruct (is_definition g d && is_present s d); [injection E as _ E; lia |]. specialize (B _ _ _ E). lia.
  - destruct (okay_tick g s (listed s) O) as [A B C D]. cbn in A, B, C, D. unfold clean.
    assert (H : forall d x, (match listed s with Some l => fun d => if existsb (Nat.eqb d) (outputs g l) then None else headers s d | None => headers s end) d
      = Some x -> headers s d = Some x).
    { intros d x. destruct (listed s) as [l |]; [| auto]. destruct (existsb (Nat.eqb d) (outputs g l)); [discriminate | auto]. }
    split; cbn [fst clock present version mtime headers].
    + exact A.
    + intros d h t E. exact (B _ _ _ (H _ _ E)).
    + intros d h t E. exact (C _ _ _ (H _ _ E)).
    + intros d e h t h' t' Ie De E E'. exact (D d e h t h' t' Ie De (H _ _ E) (H _ _ E')).
Qed.

Lemma okay_acts g l : forall s, okay g s -> okay g (acts g l s).
Proof. induction l as [| a l IH]; intros s O; cbn [acts]; [exact O |]. apply IH, okay_act, O. Qed.

(** The sources as the specification sees them. *)
Lemma view_spec s f : view s f = files s f.
Proof.
  unfold view, files. destruct (in_dec Nat.eq_dec f (present s)) as [I' | N]; destruct (is_present s f) eqn:E; try reflexivity.
  - apply is_present_iff in I'. congruence.
  - apply is_present_iff in E. contradiction.
Qed.

Lemma build_current g s l : okay g s -> sensible g -> listed s = Some l -> (forall f, In f (present s) -> In f l) ->
  accepts g (view s) = true -> snd (build g s) = true ->
  forall d, is_definition g d = true -> In d (present s) -> exists t, headers (fst (build g s)) d = Some (generate g (view s) d, t).
Proof.
  intros O Ad L P Ac Ok d De Id. unfold build in *. rewrite L in *. destruct (negb (forallb (is_present s) l)) eqn:Al; [discriminate |].
  destruct (out_of_date g s l) eqn:Od.
  - rewrite Ac in *. cbn [fst headers]. rewrite De, (proj2 (is_present_iff s d) Id). cbn [andb]. eauto.
  - cbn [fst headers]. clear Ok. unfold out_of_date in Od. apply orb_false_iff in Od. destruct Od as [Miss Old].
    assert (Do : In d (outputs g l)) by (apply filter_In; auto).
    assert (Have : forall x, In x (outputs g l) -> headers s x <> None).
    { intros x Hx E. assert (T : existsb (fun d => match headers s d with None => true | Some _ => false end) (outputs g l) = true).
      { apply existsb_exists. exists x. rewrite E. auto. } congruence. }
    destruct (outputs g l) as [| d0 os] eqn:Eo; [destruct Do |].
    destruct (headers s d0) as [[h0 t0] |] eqn:E0; [| discriminate].
    destruct (headers s d) as [[h t] |] eqn:E; [| exfalso; exact (Have d Do E)].
    assert (Le : forall f, In f l -> mtime s f <= t0).
    { intros f F. destruct (Nat.le_gt_cases (mtime s f) t0) as [H | H]; [exact H |].
      assert (T : existsb (fun f => t0 <? mtime s f) l = true) by (apply existsb_exists; exists f; split; [exact F | apply Nat.ltb_lt; lia]). congruence. }
    pose proof (o_later g s O d0 d h0 t0 h t Id De E0 E (Le d (P d Id))) as Tt.
    destruct (o_from g s O d h t E) as (fs & G & H). exists t. rewrite G. f_equal. f_equal. apply (proj2 Ad).
    + exact Ac.
    + rewrite view_spec. unfold files. destruct (in_dec Nat.eq_dec d (present s)); [discriminate | contradiction].
    + intros f v V. rewrite view_spec in V. unfold files in V. destruct (in_dec Nat.eq_dec f (present s)) as [I' |]; [| discriminate]. rewrite <- V.
      apply H; [exact I' |]. specialize (Le f (P f I')). lia.
Qed.

Lemma build_keeps g s : present (fst (build g s)) = present s /\ version (fst (build g s)) = version s /\ listed (fst (build g s)) = listed s.
Proof.
  unfold build. destruct (listed s) as [l |] eqn:L; [| cbn; auto]. destruct (negb (forallb (is_present s) l)); [cbn; auto |].
  destruct (out_of_date g s l); [destruct (accepts g (view s)) |]; cbn; auto.
Qed.

Lemma leftover g d : forall as_ s, ~ In d (present s) -> (forall l, listed s = Some l -> ~ In d l) -> (forall v, ~ In (Edit d v) as_) ->
  headers (acts g as_ s) d = headers s d.
Proof.
  induction as_ as [| a as_ IH]; intros s N NL NE; cbn [acts]; [reflexivity |].
  assert (NE' : forall v, ~ In (Edit d v) as_) by (intros v H; exact (NE v (or_intror H))).
  assert (Np : is_present s d = false) by (destruct (is_present s d) eqn:E; [apply is_present_iff in E; contradiction | reflexivity]).
  assert (K : headers (fst (act g a s)) d = headers s d /\ ~ In d (present (fst (act g a s))) /\ (forall l, listed (fst (act g a s)) = Some l -> ~ In d l)).
  { destruct a as [f v | f | | | ]; cbn [act].
    - cbn. split; [reflexivity |]. split; [| exact NL].
      assert (F : f <> d) by (intros ->; exact (NE v (or_introl eq_refl))).
      destruct (is_present s f); [exact N |]. intros H. apply in_app_or in H. destruct H as [H | [H | []]]; [exact (N H) | congruence].
    - cbn. split; [reflexivity |]. split; [| exact NL]. intros H. apply filter_In in H. exact (N (proj1 H)).
    - unfold configure. destruct (accepts g (view s) && existsb (is_definition g) (present s)); cbn; (split; [reflexivity | split; [exact N |]]).
      + intros l E. injection E as <-. exact N.
      + exact NL.
    - destruct (build_keeps g s) as (E1 & _ & E3). rewrite E1, E3. split; [| auto].
      unfold build. destruct (listed s) as [l |] eqn:L; [| reflexivity]. destruct (negb (forallb (is_present s) l)); [reflexivity |].
      destruct (out_of_date g s l); [destruct (accepts g (view s)) |]; cbn; try reflexivity. rewrite Np, andb_false_r. reflexivity.
    - cbn. split; [| auto]. destruct (listed s) as [l |] eqn:L; [| reflexivity].
      destruct (existsb (Nat.eqb d) (outputs g l)) eqn:E; [| reflexivity]. exfalso. apply existsb_exists in E. destruct E as (x & Hx & Ex).
      apply Nat.eqb_eq in Ex. subst x. apply filter_In in Hx. exact (NL l eq_refl (proj1 Hx)). }
  destruct K as (K1 & K2 & K3). rewrite (IH _ K2 K3 NE'). exact K1.
Qed.

(** ** Documentation *)

Record sane (s : site) : Prop := Sane {
  s_config : forall b t, config s = Some (b, t) -> t <= now s;
  s_html : forall v t, html s = Some (v, t) -> t <= now s
}.
Lemma sane_happens e s : sane s -> sane (happens e s).
Proof.
  intros [A B]. destruct e as [v | b | | ]; unfold happens.
  - split; cbn; intros x t E; [specialize (A _ _ E) | specialize (B _ _ E)]; lia.
  - split; cbn; intros x t E.
    + destruct (config s) as [[b' t'] |]; [| injection E as _ <-; lia]. specialize (A _ _ eq_refl).
      destruct (b' =? b); injection E as _ <-; lia.
    + specialize (B _ _ E). lia.
  - destruct (config s) as [[b tc] |] eqn:C.
    + specialize (A _ _ eq_refl). destruct (match html s with None => true | Some (_, th) => th <? tc end); split; cbn; intros x t E.
      * injection E as _ <-. lia.
      * injection E as _ <-. lia.
      * injection E as _ <-. lia.
      * specialize (B _ _ E). lia.
    + split; cbn; intros x t E; [discriminate | specialize (B _ _ E); lia].
  - split; cbn; intros x t E; [specialize (A _ _ E); lia | discriminate].
Qed.
Lemma sane_happen l : forall s, sane s -> sane (happen l s).
Proof. induction l as [| e l IH]; intros s H; cbn [happen]; [exact H |]. apply IH, sane_happens, H. Qed.
Lemma sane_new v : sane (new_site v).
Proof. split; cbn; intros; discriminate. Qed.

Lemma quiet_same b tc v th : forall l s, config s = Some (b, tc) -> html s = Some (v, th) -> tc <= th -> quiet b l ->
  html (happen l s) = Some (v, th).
Proof.
  induction l as [| e l IH]; intros s C H Le Q; cbn [happen]; [exact H |].
  assert (Q' : quiet b l) by (intros x Hx; apply Q; right; exact Hx).
  pose proof (Q e (or_introl eq_refl)) as Qe. apply IH; try exact Q'; try exact Le.
  - destruct e as [w | b' | | ]; unfold happens; [cbn; exact C | | | destruct Qe].
    + cbn. rewrite C, Qe, Nat.eqb_refl. reflexivity.
    + rewrite C, H. destruct (th <? tc); reflexivity.
  - destruct e as [w | b' | | ]; unfold happens; [cbn; exact H | cbn; exact H | | destruct Qe].
    rewrite C, H. destruct (Nat.ltb_spec th tc); [lia | reflexivity].
Qed.

Lemma sensible_sample : sensible sample.
Proof.
  split.
  - intros fs fs' E. cbn. rewrite (E 0), (E 1), (E 2). reflexivity.
  - intros fs fs' d. cbn. intros A D M. destruct (fs d) as [v |] eqn:Ed; [| congruence]. rewrite (M _ _ Ed).
    destruct (fs 0) as [t |] eqn:E0; [| discriminate]. rewrite (M _ _ E0).
    destruct (Nat.eqb_spec d 1) as [Hd | Hd]; [| reflexivity]. destruct (Nat.eqb_spec v 7) as [Hv | Hv]; [| reflexivity].
    rewrite Hd, Hv in Ed. rewrite Ed in A. destruct (fs 2) as [w |] eqn:E2; [| discriminate]. rewrite (M _ _ E2). reflexivity.
Qed.
