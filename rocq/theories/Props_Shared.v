(** The googletest that the tests of a build directory are linked with. *)
From Coq Require Import Bool List Arith.
From Verif Require Import SharedModel SharedSpec SharedProofs.
Import ListNotations.

(** C171 full statement (false): the tests of a build directory are linked with a googletest compiled as that directory was configured.

    Configure one directory, configure another one that uses the same folder, and build in the first. *)
Theorem C171_own_flavour_refuted :
  ~ (forall l h b k own m, last_configured b h = Some (k, own) -> links l h b m -> m = map (fun _ => k) l).
Proof.
  intros A. specialize (A [0; 1] [Configure 0 7 false; Configure 1 8 false] 0 7 false [8; 8] eq_refl).
  assert (K : links [0; 1] [Configure 0 7 false; Configure 1 8 false] 0 [8; 8]) by (now exists None).
  specialize (A K). discriminate A.
Qed.
Print Assumptions C171_own_flavour_refuted.

(** What is true: it is, exactly when the directory builds its own googletest or the last one configured of those that share it was configured in
    the same way. *)
Theorem C171_own_flavour_iff_partial :
  forall l h b k own m, l <> [] -> last_configured b h = Some (k, own) -> links l h b m ->
  (m = map (fun _ => k) l <-> own = true \/ last_shared h = Some k).
Proof.
  intros l h b k own m NE C K. apply links_iff in K. destruct K as (k0 & own0 & C0 & M). rewrite C in C0. injection C0 as <- <-.
  destruct own.
  - subst. tauto.
  - destruct M as (k' & L & ->). rewrite L. split.
    + intros E. right. destruct l as [|i l]; [contradiction|]. cbn in E. now injection E as -> _.
    + intros [E | E]; [discriminate|]. now injection E as ->.
Qed.
Print Assumptions C171_own_flavour_iff_partial.

Example C171_own_flavour_iff_case :
  let h := [Configure 0 7 false; Make 0 (Some 1); Configure 1 8 false; Make 1 None; Configure 2 9 true; Configure 0 7 false; Make 0 (Some 1)] in
  last_configured 0 h = Some (7, false) /\ links [0; 1; 2] h 0 [7; 7; 7] /\ last_shared h = Some 7.
Proof. split; [reflexivity | split; [now exists None | reflexivity]]. Qed.

(** However often the directory changes hands and builds are interrupted, the library is never a mixture. *)
Theorem C171_never_mixed :
  forall l h b m, links l h b m -> exists k, m = map (fun _ => k) l.
Proof.
  intros l h b m K. apply links_iff in K. destruct K as (k & own & _ & M). destruct own; [now exists k|].
  destruct M as (k' & _ & ->). now exists k'.
Qed.
Print Assumptions C171_never_mixed.

Example C171_never_mixed_case :
  links [0; 1; 2] [Configure 0 7 false; Make 0 (Some 2); Configure 1 8 false; Make 1 (Some 1); Configure 0 7 false; Make 0 (Some 2)] 1 [7; 7; 7].
Proof. now exists None. Qed.

(** Every directory that was configured can be built, and one that is configured again just before gets its own flavour. *)
Theorem C171_configured_builds :
  forall l h b k own, last_configured b h = Some (k, own) -> exists m, links l h b m.
Proof.
  intros l h b k own C. destruct own.
  - exists (map (fun _ => k) l). apply links_iff. exists k, true. tauto.
  - destruct (shared_configured b h k C) as (k' & L). exists (map (fun _ => k') l). apply links_iff. exists k, false.
    split; [exact C|]. now exists k'.
Qed.
Print Assumptions C171_configured_builds.

Theorem C171_configure_before_make :
  forall l h b k own m, links l (h ++ [Configure b k own]) b m -> m = map (fun _ => k) l.
Proof.
  intros l h b k own m K. apply links_iff in K. destruct K as (k0 & own0 & C & M).
  rewrite last_configured_snoc, Nat.eqb_refl in C. injection C as <- <-. destruct own; [exact M|].
  destruct M as (k' & L & ->). rewrite last_shared_snoc in L. now injection L as ->.
Qed.
Print Assumptions C171_configure_before_make.

Example C171_configure_before_make_case :
  last_configured 1 [Configure 0 7 false; Configure 1 8 false] = Some (8, false) /\
  links [0; 1] ([Configure 0 7 false; Make 0 None; Configure 1 8 false; Make 1 None] ++ [Configure 0 7 false]) 0 [7; 7].
Proof. split; [reflexivity | now exists None]. Qed.
