(** Proofs about what is loaded into the board. *)
From Coq Require Import Bool List Arith.
From Verif Require Import FlashModel FlashSpec.
Import ListNotations.

Lemma history_snoc d h s : history d (h ++ [s]) = perform d (history d h) s.
Proof. unfold history. now rewrite fold_left_app. Qed.

Lemma edited_snoc h s : forall v, edited v (h ++ [s]) = match s with Edit v' => v' | _ => edited v h end.
Proof. induction h as [|s' h IH]; intros v; cbn; [now destruct s|]. destruct s'; apply IH. Qed.

Lemma build_source d t f : source (fst (build d t f)) = source f.
Proof. unfold build. destruct (elf f); destruct (newer f); destruct t as [| |[] []|[]|[]]; reflexivity. Qed.

Lemma flash_files d t j f : fst (flash d t j f) = fst (build d t f).
Proof. unfold flash. now destruct (build d t f) as [f' []]. Qed.

Lemma history_source d h : source (history d h) = edited 0 h.
Proof.
  induction h as [|s h IH] using rev_ind; [reflexivity|]. rewrite history_snoc, edited_snoc, <- IH.
  destruct s; cbn [perform]; rewrite ?flash_files, ?build_source; reflexivity.
Qed.

(** A program that is up to date is whole, and the hex file is made from it or is not there. *)
Definition good (f : files) : Prop :=
  newer f = false -> elf f <> None -> elf f = Some (Of (source f)) /\ (hex f = None \/ hex f = Some (Of (source f))).

Lemma build_good d t f : harmless d t -> good f -> good (fst (build d t f)).
Proof.
  intros (H1 & H2 & H3) G. unfold build. destruct (elf f) as [i|] eqn:E; [destruct (newer f) eqn:N|].
  2: exact G.
  all: destruct t as [| |[] []|[]|[]]; try contradiction; cbn [fst]; unfold good; cbn [newer elf hex source];
    try congruence; try (intros; split; auto; congruence).
  all: try (destruct d; intros; [congruence | try (exfalso; now apply H3)]; split; auto).
Qed.

Lemma history_good d h : meets (harmless d) h -> good (history d h).
Proof.
  induction h as [|s h IH] using rev_ind; intros M; [discriminate|].
  rewrite history_snoc. assert (G : good (history d h)).
  { apply IH. intros s' I. apply M. apply in_or_app. now left. }
  assert (T : In s (h ++ [s])) by (apply in_or_app; right; now left). apply M in T.
  destruct s as [v | t | t j | |]; cbn [perform]; rewrite ?flash_files.
  - discriminate.
  - now apply build_good.
  - now apply build_good.
  - intros _ X. now destruct X.
  - intros N X. destruct (G N X) as (A & _). split; [exact A | now left].
Qed.

Lemma flash_good d t j f i : good f -> snd (flash d t j f) = Some i -> i = Of (source f).
Proof.
  intros G. unfold flash, build. destruct (elf f) as [e|] eqn:E; [destruct (newer f) eqn:N|].
  2:{ cbn. destruct (G N) as (_ & H); [now rewrite E|]. destruct j; [|discriminate].
      intros Q. destruct H as [H | H]; rewrite H in Q; [discriminate | now injection Q as <-]. }
  all: destruct t as [| |[] []|[]|[]]; cbn; try discriminate; destruct j; try discriminate; intros Q; now injection Q as <-.
Qed.

Lemma loads_good d h i : meets (harmless d) h -> loads d h i -> i = Of (edited 0 h).
Proof.
  intros M (t & j & E). rewrite <- (history_source d). exact (flash_good d t j _ i (history_good d h M) E).
Qed.

(** What a trouble that is not harmless does. *)
Lemma harm d t : ~ harmless d t -> loads d [Edit 1; Build NoTrouble; Edit 2; Build t] (Of 1) \/ loads d [Edit 1; Build NoTrouble; Edit 2; Build t] Torn.
Proof.
  intros N. unfold loads.
  assert (K : t = Killed Link \/ t = Killed ToHex \/ (d = false /\ t = Fails ToHex true)).
  { destruct t as [| |[] []|[]|[]]; destruct d; try tauto;
      exfalso; apply N; repeat split; intros; discriminate. }
  destruct K as [-> | [-> | (-> & ->)]].
  - left. exists NoTrouble, true. destruct d; reflexivity.
  - right. exists NoTrouble, true. destruct d; reflexivity.
  - left. exists NoTrouble, true. reflexivity.
Qed.

(** The binary file. *)
Definition good_binary (f : files) : Prop :=
  newer f = false -> elf f <> None -> bin f = None \/ bin f = Some (Of (source f)).

Lemma build_good_binary d t f : harmless_to_binary d t -> good_binary f -> good_binary (fst (build d t f)).
Proof.
  intros (H1 & H2 & H3 & H4) G. unfold build. destruct (elf f) as [i|] eqn:E; [destruct (newer f) eqn:N|].
  2: exact G.
  all: destruct t as [| |[] []|[]|[]]; try contradiction; cbn [fst]; unfold good_binary; cbn [newer elf bin source];
    try congruence; try (intros; auto; congruence).
  all: try (destruct d; intros; [congruence | destruct (H4 eq_refl) as (X1 & X2 & X3); try contradiction; auto]).
Qed.

Lemma history_good_binary d h : meets (harmless_to_binary d) h -> good_binary (history d h).
Proof.
  induction h as [|s h IH] using rev_ind; intros M; [discriminate|].
  rewrite history_snoc. assert (G : good_binary (history d h)).
  { apply IH. intros s' I. apply M. apply in_or_app. now left. }
  assert (T : In s (h ++ [s])) by (apply in_or_app; right; now left). apply M in T.
  destruct s as [v | t | t j | |]; cbn [perform]; rewrite ?flash_files.
  - discriminate.
  - now apply build_good_binary.
  - now apply build_good_binary.
  - intros _ X. now destruct X.
  - exact G.
Qed.

Lemma leaves_good_binary d h i : meets (harmless_to_binary d) h -> leaves_binary d h i -> i = Of (edited 0 h).
Proof.
  intros M (t & f & E & B). rewrite <- (history_source d). pose proof (history_good_binary d h M) as G. revert E. unfold build.
  destruct (elf (history d h)) as [e|] eqn:X; [destruct (newer (history d h)) eqn:N|].
  2:{ intros E. injection E as <-. destruct (G N) as [H | H]; rewrite ?X; [discriminate | rewrite H in B; discriminate | rewrite H in B; now injection B as <-]. }
  all: destruct t as [| |[] []|[]|[]]; intros E; try discriminate E; injection E as <-; cbn in B; now injection B as <-.
Qed.

Lemma harm_to_binary d t : ~ harmless_to_binary d t ->
  leaves_binary d [Edit 1; Build NoTrouble; Edit 2; Build t] (Of 1) \/ leaves_binary d [Edit 1; Build NoTrouble; Edit 2; Build t] Torn.
Proof.
  intros N. unfold leaves_binary.
  assert (K : t = Killed Link \/ t = Killed ToHex \/ t = Killed ToBin \/ (d = false /\ (t = Fails ToHex true \/ t = Fails ToHex false \/ t = Fails ToBin true))).
  { destruct t as [| |[] []|[]|[]]; destruct d; try tauto; exfalso; apply N; repeat split; intros; discriminate. }
  destruct K as [-> | [-> | [-> | (-> & [-> | [-> | ->]])]]]; [left | left | right | left | left | left]; exists NoTrouble; eexists;
    (split; [try destruct d; reflexivity | reflexivity]).
Qed.

Lemma build_success d t f : snd (build d t f) = true <-> t = NoTrouble \/ (elf f <> None /\ newer f = false).
Proof.
  unfold build. destruct (elf f) as [e|]; [destruct (newer f)|].
  - destruct t as [| |[] []|[]|[]]; cbn; (split; [auto; discriminate | intros [X | (_ & X)]; congruence]).
  - cbn. split; [right; split; [discriminate | reflexivity] | reflexivity].
  - destruct t as [| |[] []|[]|[]]; cbn; (split; [auto; discriminate | intros [X | (X & _)]; congruence]).
Qed.
