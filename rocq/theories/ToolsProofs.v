(** Proofs about the tools. *)
From Coq Require Import ZArith Bool Ascii String List Lia.
From Verif Require Import ToolsModel ToolsSpec.
Import ListNotations.
Open Scope string_scope.
Open Scope Z_scope.

Lemma collect_printed : forall blank changes,
  collect (flat_map (fun c => [Element "replacement" [("offset", ch_offset c); ("length", ch_length c)]
                                 (if String.eqb (ch_text c) "" then [] else [Text (ch_text c)]); Text blank]) changes) =
  (map (fun c => (ch_length c, ch_offset c, ch_text c)) changes, true).
Proof.
  intros blank. induction changes as [|c rest IH]; [reflexivity|]. cbn [flat_map app collect nodeName].
  change (String.eqb "replacement" "replacement") with true. change (String.eqb "#text" "replacement") with false. cbn iota.
  rewrite IH. cbn [map]. do 2 f_equal. unfold getAttribute, replacement_text. cbn.
  destruct (String.eqb_spec (ch_text c) "") as [->|]; reflexivity.
Qed.

Lemma replacements_printed : forall blank incomplete changes,
  replacements (Some (printed blank incomplete changes)) = map (fun c => (ch_length c, ch_offset c, ch_text c)) changes.
Proof.
  intros. unfold replacements, printed. cbn [scan nodeName childNodes].
  change (String.eqb "replacements" "replacements") with true. cbn iota. cbn [collect nodeName].
  change (String.eqb "#text" "replacement") with false. cbn iota. rewrite collect_printed. apply app_nil_r.
Qed.

(** What the check does in general. *)
Definition command (path f : string) : list string := [path; "-fallback-style=none"; "-style=file"; "-output-replacements-xml"; f].

Lemma check_files_ok : forall path cf files result, Forall (fun f => ft_status (cf f) = 0) files ->
  check_files path cf files result =
    ((if existsb (fun f => negb (Nat.eqb (List.length (replacements (ft_document (cf f)))) 0)) files then -1 else result) mod 256,
     map (command path) files).
Proof.
  intros path cf. induction files as [|f rest IH]; intros result H; [reflexivity|]. inversion H as [|? ? H1 H2]; subst.
  cbn [check_files existsb map]. rewrite H1, IH by auto. change (0 =? 0) with true. cbn iota.
  destruct (replacements (ft_document (cf f))) as [|r l] eqn:R.
  - cbn [List.length Nat.eqb negb orb]. change (0 <? Z.of_nat 0) with false. reflexivity.
  - cbn [List.length Nat.eqb negb orb]. replace (0 <? Z.of_nat (S (List.length l))) with true by (symmetry; apply Z.ltb_lt; lia).
    destruct (existsb _ rest); reflexivity.
Qed.

Lemma check_files_fail : forall path cf files result before f after, files = (before ++ f :: after)%list ->
  Forall (fun f => ft_status (cf f) = 0) before -> ft_status (cf f) <> 0 ->
  check_files path cf files result = (1, map (command path) (before ++ [f])).
Proof.
  intros path cf files result before f after -> H N. revert result. induction H as [|b before H1 H2 IH]; intros result; cbn [app check_files map].
  - destruct (Z.eqb_spec (ft_status (cf f)) 0); [contradiction|reflexivity].
  - rewrite H1, IH. reflexivity.
Qed.

Lemma works_replacements : forall cf needs f, works cf needs f -> ft_status (cf f) = 0 /\
  (replacements (ft_document (cf f)) = [] <-> needs f = [] \/ existsb unreadable (needs f) = true).
Proof.
  intros cf needs f (b & i & ->). split; [reflexivity|]. cbn [ft_document]. destruct (existsb unreadable (needs f)) eqn:U.
  - cbn. tauto.
  - rewrite replacements_printed. destruct (needs f); cbn; intuition discriminate.
Qed.

Lemma format_check_works : forall path cf needs files, files <> [] -> (forall f, In f files -> works cf needs f) ->
  exists status, format_check path cf files = (status, map (command path) files) /\ (status = 0 \/ status = 255) /\
    (status = 0 <-> forall f, In f files -> needs f = [] \/ exists c, In c (needs f) /\ unreadable c = true).
Proof.
  intros path cf needs files NE W. unfold format_check. destruct (Z.eqb_spec (Z.of_nat (List.length files)) 0) as [E|E].
  { destruct files; [congruence|]. cbn [List.length] in E. lia. }
  assert (S : Forall (fun f => ft_status (cf f) = 0) files).
  { apply Forall_forall. intros f I. apply (works_replacements _ _ _ (W f I)). }
  rewrite check_files_ok by auto. eexists. split; [reflexivity|].
  destruct (existsb _ files) eqn:X.
  - split; [now right|]. split; [discriminate|]. intros H. exfalso. apply existsb_exists in X. destruct X as (f & I & X).
    assert (R : replacements (ft_document (cf f)) = []).
    { apply (works_replacements _ _ _ (W f I)). destruct (H f I) as [N|U]; [now left|right]. apply existsb_exists. exact U. }
    rewrite R in X. discriminate.
  - split; [now left|]. split; [|reflexivity]. intros _ f I.
    assert (R : replacements (ft_document (cf f)) = []).
    { destruct (replacements (ft_document (cf f))) eqn:R; auto. exfalso.
      assert (Y : existsb (fun f => negb (Nat.eqb (List.length (replacements (ft_document (cf f)))) 0)) files = true)
        by (apply existsb_exists; exists f; split; auto; rewrite R; reflexivity).
      congruence. }
    apply (works_replacements _ _ _ (W f I)) in R. destruct R as [N|U]; [now left|right]. apply existsb_exists. exact U.
Qed.

Lemma last_single_append : forall id, String.eqb (id ++ "]") "]" = true <-> id = "".
Proof.
  intros id. rewrite String.eqb_eq. split; [|intros ->; reflexivity]. destruct id as [|a id]; auto. cbn. intros E. injection E as _ E.
  destruct id; discriminate.
Qed.

Lemma build_id_test_never : forall id, build_id_test id <> 0.
Proof.
  intros id. unfold build_id_test, bracket. cbn [last]. destruct (String.eqb (id ++ "]") "]"); [|discriminate]. cbn. discriminate.
Qed.
