(** What flashtest_... loads into the board. *)
From Coq Require Import Bool List Arith.
From Verif Require Import FlashModel FlashSpec FlashProofs.
Import ListNotations.

(** C172 full statement (false): what is loaded is made from the sources as they are.

    When a conversion to the hex file fails, the next build finds the program up to date and the hex file of before is loaded (makefiles that do
    not delete targets of recipes that fail). *)
Theorem C172_current_program_refuted :
  ~ (forall h i, loads false h i -> i = Of (edited 0 h)).
Proof.
  intros A. specialize (A [Edit 1; Build NoTrouble; Edit 2; Build (Fails ToHex true)] (Of 1)).
  assert (L : loads false [Edit 1; Build NoTrouble; Edit 2; Build (Fails ToHex true)] (Of 1)) by (now exists NoTrouble, true).
  specialize (A L). discriminate A.
Qed.
Print Assumptions C172_current_program_refuted.

(** Also with makefiles that delete them, when the build is killed. *)
Theorem C172_after_a_crash_refuted :
  ~ (forall h i, loads true h i -> i = Of (edited 0 h)).
Proof.
  intros A. specialize (A [Edit 1; Build NoTrouble; Edit 2; Build (Killed Link)] (Of 1)).
  assert (L : loads true [Edit 1; Build NoTrouble; Edit 2; Build (Killed Link)] (Of 1)) by (now exists NoTrouble, true).
  specialize (A L). discriminate A.
Qed.
Print Assumptions C172_after_a_crash_refuted.

(** What is true: of the troubles that may happen, these do the harm and no others: being killed while linking or converting to hex, and a failed
    conversion to hex that leaves the file of before when targets of failed recipes are kept. *)
Theorem C172_current_program_iff_partial :
  forall deletes (may : trouble -> Prop), may NoTrouble ->
  ((forall h i, meets may h -> loads deletes h i -> i = Of (edited 0 h)) <-> (forall t, may t -> harmless deletes t)).
Proof.
  intros d may N. split.
  - intros A t T. assert (K : harmless d t \/ ~ harmless d t).
    { unfold harmless. destruct t as [| |[] []|[]|[]], d; try (left; repeat split; intros; discriminate);
        right; intros (A1 & A2 & A3); try contradiction; now apply A3. }
    destruct K as [K | K]; [exact K|]. exfalso.
    assert (M : meets may [Edit 1; Build NoTrouble; Edit 2; Build t]).
    { intros s [<- | [<- | [<- | [<- | []]]]]; try exact I; assumption. }
    destruct (harm d t K) as [L | L]; apply (A _ _ M) in L; discriminate L.
  - intros A h i M L. apply (loads_good d h i); [|exact L].
    intros s S. specialize (M s S). destruct s; try exact I; now apply A.
Qed.
Print Assumptions C172_current_program_iff_partial.

Example C172_current_program_iff_case :
  (forall t, (t = NoTrouble \/ t = Fails ToHex true \/ t = Interrupted ToHex \/ t = Killed ToBin) -> harmless true t) /\
  loads true [Edit 1; Build (Interrupted ToHex); Flash NoTrouble true; Edit 2; Build (Fails ToHex true)] (Of 2).
Proof.
  split.
  - intros t [-> | [-> | [-> | ->]]]; repeat split; intros; discriminate.
  - now exists NoTrouble, true.
Qed.

(** The remedy: after make clean, or an edit, what is loaded is right whatever happened before. *)
Theorem C172_clean_first :
  forall deletes h s i, s = Clean \/ (exists v, s = Edit v) -> loads deletes (h ++ [s]) i -> i = Of (edited 0 (h ++ [s])).
Proof.
  intros d h s i C (t & j & E). rewrite <- (history_source d). apply (flash_good d t j _ i); [|exact E].
  rewrite history_snoc. destruct C as [-> | (v & ->)]; cbn [perform].
  - intros _ X. now destruct X.
  - discriminate.
Qed.
Print Assumptions C172_clean_first.

Example C172_clean_first_case :
  loads false ([Edit 1; Build NoTrouble; Edit 2; Build (Fails ToHex true)] ++ [Clean]) (Of 2) /\
  loads false [Edit 1; Build NoTrouble; Edit 2; Build (Fails ToHex true)] (Of 1).
Proof. split; now exists NoTrouble, true. Qed.

(** And without further trouble it is loaded. *)
Theorem C172_clean_loads :
  forall deletes h s, s = Clean \/ (exists v, s = Edit v) -> loads deletes (h ++ [s]) (Of (edited 0 (h ++ [s]))).
Proof.
  intros d h s C. exists NoTrouble, true. rewrite <- (history_source d), history_snoc. unfold flash, build.
  destruct C as [-> | (v & ->)]; cbn [perform elf newer]; [reflexivity|]. now destruct (elf (history d h)).
Qed.
Print Assumptions C172_clean_loads.

(** Not so if the first build after make clean meets trouble: make clean leaves the hex file. *)
Theorem C172_clean_then_trouble_refuted :
  ~ (forall h t i, loads false (h ++ [Clean; Build t]) i -> i = Of (edited 0 (h ++ [Clean; Build t]))).
Proof.
  intros A. specialize (A [Edit 1; Build NoTrouble; Edit 2] (Fails ToHex true) (Of 1)).
  assert (L : loads false ([Edit 1; Build NoTrouble; Edit 2] ++ [Clean; Build (Fails ToHex true)]) (Of 1)) by (now exists NoTrouble, true).
  specialize (A L). discriminate A.
Qed.
Print Assumptions C172_clean_then_trouble_refuted.

(** Without the hex file nothing is loaded, and the build does not make it again while the program is up to date. *)
Theorem C172_missing_hex :
  forall deletes h t, elf (history deletes h) <> None -> newer (history deletes h) = false ->
  forall u i, (forall s, In s u -> exists t' j, s = Build t' \/ s = Flash t' j) ->
  ~ loads deletes ((h ++ [Remove]) ++ u) i /\ snd (build deletes t (history deletes (h ++ [Remove]))) = true.
Proof.
  intros d h t E N u i U.
  assert (K : forall u, (forall s, In s u -> exists t' j, s = Build t' \/ s = Flash t' j) ->
    history d ((h ++ [Remove]) ++ u) = history d (h ++ [Remove])).
  { intros u'. induction u' as [|s u' IH] using rev_ind; intros U'; [now rewrite app_nil_r|].
    rewrite app_assoc, history_snoc, IH by (intros s' S'; apply U'; apply in_or_app; now left).
    destruct (U' s) as (t' & j & [-> | ->]); [apply in_or_app; right; now left | |]; rewrite history_snoc; cbn [perform];
      rewrite ?flash_files; unfold build; cbn [elf newer]; destruct (elf (history d h)); try contradiction; now rewrite N. }
  split.
  - intros (t' & j & L). rewrite (K u U), history_snoc in L. unfold flash, build in L. cbn [perform elf newer] in L.
    destruct (elf (history d h)); [|contradiction]. rewrite N in L. destruct j; discriminate.
  - rewrite history_snoc. unfold build. cbn [perform elf newer]. destruct (elf (history d h)); [|contradiction]. now rewrite N.
Qed.
Print Assumptions C172_missing_hex.

Example C172_missing_hex_case :
  elf (history true [Build NoTrouble]) <> None /\ newer (history true [Build NoTrouble]) = false /\
  (forall s, In s [Build NoTrouble; Flash NoTrouble true] -> exists t' j, s = Build t' \/ s = Flash t' j).
Proof.
  split; [discriminate | split; [reflexivity|]]. intros s [<- | [<- | []]]; exists NoTrouble, true; [now left | now right].
Qed.

(** A build says truly whether it made the program: it succeeds if there was no trouble, or if there was nothing to do. *)
Theorem C172_build_success_iff :
  forall deletes h t, snd (build deletes t (history deletes h)) = true <->
  t = NoTrouble \/ (elf (history deletes h) <> None /\ newer (history deletes h) = false).
Proof. intros d h t. apply build_success. Qed.
Print Assumptions C172_build_success_iff.

(** After a build without trouble there is nothing to do until the sources are edited or the program is deleted. *)
Theorem C172_nothing_to_do :
  forall deletes h t, build deletes t (history deletes (h ++ [Build NoTrouble])) = (history deletes (h ++ [Build NoTrouble]), true).
Proof.
  intros d h t. rewrite history_snoc. cbn [perform]. unfold build at 2 3. destruct (elf (history d h)) as [e|] eqn:E; [destruct (newer (history d h)) eqn:N|];
    cbn [fst]; [reflexivity | unfold build; now rewrite E, N | reflexivity].
Qed.
Print Assumptions C172_nothing_to_do.

Example C172_nothing_to_do_case : elf (history true [Edit 3; Build NoTrouble]) = Some (Of 3) /\ newer (history true [Edit 3; Build NoTrouble]) = false.
Proof. split; reflexivity. Qed.

(** The binary file, which is made beside the hex file, suffers from more troubles. Full statement (false): after a build that succeeds it is made from
    the sources as they are. *)
Theorem C172_binary_refuted :
  ~ (forall h i, leaves_binary false h i -> i = Of (edited 0 h)).
Proof.
  intros A. specialize (A [Edit 1; Build NoTrouble; Edit 2; Build (Fails ToBin true)] (Of 1)).
  assert (L : leaves_binary false [Edit 1; Build NoTrouble; Edit 2; Build (Fails ToBin true)] (Of 1)) by (exists NoTrouble; eexists; split; reflexivity).
  specialize (A L). discriminate A.
Qed.
Print Assumptions C172_binary_refuted.

(** Exactly these troubles do the harm. *)
Theorem C172_binary_iff_partial :
  forall deletes (may : trouble -> Prop), may NoTrouble ->
  ((forall h i, meets may h -> leaves_binary deletes h i -> i = Of (edited 0 h)) <-> (forall t, may t -> harmless_to_binary deletes t)).
Proof.
  intros d may N. split.
  - intros A t T. assert (K : harmless_to_binary d t \/ ~ harmless_to_binary d t).
    { unfold harmless_to_binary. destruct t as [| |[] []|[]|[]], d; try (left; repeat split; intros; discriminate);
        right; intros (A1 & A2 & A3 & A4); try contradiction; destruct (A4 eq_refl) as (X1 & X2 & X3); contradiction. }
    destruct K as [K | K]; [exact K|]. exfalso.
    assert (M : meets may [Edit 1; Build NoTrouble; Edit 2; Build t]).
    { intros s [<- | [<- | [<- | [<- | []]]]]; try exact I; assumption. }
    destruct (harm_to_binary d t K) as [L | L]; apply (A _ _ M) in L; discriminate L.
  - intros A h i M L. apply (leaves_good_binary d h i); [|exact L].
    intros s S. specialize (M s S). destruct s; try exact I; now apply A.
Qed.
Print Assumptions C172_binary_iff_partial.

Example C172_binary_iff_partial_case :
  (forall t, (t = NoTrouble \/ t = Fails ToBin false \/ t = Interrupted ToBin) -> harmless_to_binary false t) /\
  leaves_binary false [Edit 1; Build (Interrupted ToBin); Flash NoTrouble true; Edit 2; Build NoTrouble] (Of 2).
Proof.
  split.
  - intros t [-> | [-> | ->]]; repeat split; intros; discriminate.
  - exists NoTrouble. eexists. split; reflexivity.
Qed.
