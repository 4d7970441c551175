(** Proofs about command lines when POSIXLY_CORRECT is set. *)
From Coq Require Import ZArith Bool Ascii String List Lia.
From Verif Require Import Outcome ResultModel ParseArgsModel ParsePosixModel ParseArgsSpec ParseArgsProofs ParseFormsProofs.
Import ListNotations.
Open Scope string_scope.
Open Scope list_scope.

Lemma posix_option : forall w rest table, option_word w -> getopt_long_posix (w :: rest) table = getopt_long (w :: rest) table.
Proof. intros w rest t (c & b & ->). reflexivity. Qed.

Lemma posix_operand : forall w rest table, ~ option_word w -> getopt_long_posix (w :: rest) table = (NoMore, w :: rest).
Proof.
  intros [|c0 [|c1 b]] rest t W; try reflexivity. cbn [getopt_long_posix].
  destruct (Ascii.eqb_spec c0 "-") as [->|N]; [|reflexivity]. exfalso. apply W. exists c1, b. reflexivity.
Qed.

Lemma posix_form : forall x rest table, well_formed x -> ~ is_operand x ->
  getopt_long_posix (spelling x ++ rest) table = getopt_long (spelling x ++ rest) table.
Proof. intros [w|n|n|a n|a n|a] rest t W N; cbn in N; [tauto|..]; apply posix_option; cbn; eexists _, _; reflexivity. Qed.

(** After forms that are options, both parsers are where the same remaining words are parsed. *)
Lemma posix_forms : forall l fuel tail ds c, Forall well_formed l -> (forall x, In x l -> ~ is_operand x) ->
  (length (flat_map spelling l ++ tail) < fuel)%nat ->
  (forall before x after, l = before ++ x :: after -> is_long_device x -> ds ++ devices_in before = []) ->
  exists k, (length tail < k)%nat /\
    parse_loop_posix fuel (flat_map spelling l ++ tail) (table (seen_of ds)) (Namespace ds c) =
    parse_loop_posix k tail (table (seen_of (ds ++ devices_in l))) (Namespace (ds ++ devices_in l) (c || go_in l)).
Proof.
  induction l as [|x l IH]; intros fuel tail ds c W NO F L.
  - exists fuel. cbn [flat_map app devices_in go_in existsb] in *. rewrite app_nil_r, orb_false_r. auto.
  - inversion W as [|? ? W1 W2]; subst. cbn [flat_map] in *. rewrite <- app_assoc in *.
    assert (LX : is_long_device x -> ds = []).
    { intros H. specialize (L [] x l eq_refl H). cbn in L. now rewrite app_nil_r in L. }
    assert (LL : forall before y after, l = before ++ y :: after -> is_long_device y -> (ds ++ device_in x) ++ devices_in before = []).
    { intros b y a E H. rewrite <- app_assoc. apply (L (x :: b) y a); [now subst l|exact H]. }
    assert (SP : (1 <= length (spelling x))%nat) by (destruct x; cbn; lia).
    rewrite app_length in F. destruct fuel as [|fuel]; [lia|].
    replace (ds ++ devices_in (x :: l)) with ((ds ++ device_in x) ++ devices_in l) by (now rewrite <- app_assoc).
    replace (c || go_in (x :: l)) with ((c || match x with Go _ => true | _ => false end) || go_in l)
      by (cbn [go_in existsb]; now rewrite orb_assoc).
    assert (NX : ~ is_operand x) by (apply NO; now left).
    assert (E : parse_loop_posix (S fuel) (spelling x ++ flat_map spelling l ++ tail) (table (seen_of ds)) (Namespace ds c) =
      parse_loop_posix fuel (flat_map spelling l ++ tail) (table (seen_of (ds ++ device_in x)))
        (Namespace (ds ++ device_in x) (c || match x with Go _ => true | _ => false end))).
    { clear IH F L LL W2. cbn [parse_loop_posix]. rewrite (posix_form x _ _ W1 NX), (getopt_form _ _ _ W1).
      destruct x as [w|n|n|a n|a n|a]; cbn [device_in].
      - exfalso. now apply NX.
      - change (Ascii.eqb "d" "e" || Ascii.eqb "d" "c")%char with false. change (Ascii.eqb "d" "d") with true. cbn iota.
        rewrite clear_table, seen_snoc, orb_false_r. reflexivity.
      - change (Ascii.eqb "d" "e" || Ascii.eqb "d" "c")%char with false. change (Ascii.eqb "d" "d") with true. cbn iota.
        rewrite clear_table, seen_snoc, orb_false_r. reflexivity.
      - rewrite (LX Logic.I). cbn [seen_of]. change (Ascii.eqb "d" "e" || Ascii.eqb "d" "c")%char with false. change (Ascii.eqb "d" "d") with true. cbn iota.
        rewrite clear_table, orb_false_r. reflexivity.
      - rewrite (LX Logic.I). cbn [seen_of]. change (Ascii.eqb "d" "e" || Ascii.eqb "d" "c")%char with false. change (Ascii.eqb "d" "d") with true. cbn iota.
        rewrite clear_table, orb_false_r. reflexivity.
      - destruct (abbr_continuous a (seen_of ds) W1) as (i & o & -> & _ & V).
        replace (Ascii.eqb (lo_val o) "e" || Ascii.eqb (lo_val o) "c")%char with true by (destruct V as [->| ->]; reflexivity).
        rewrite app_nil_r, orb_true_r. reflexivity. }
    rewrite E. apply IH; auto; [|lia]. intros y Y. apply NO. now right.
Qed.

Lemma posix_meaning : forall l tail fuel, Forall well_formed l -> (forall x, In x l -> ~ is_operand x) -> no_late_long l ->
  (length (flat_map spelling l ++ tail) < fuel)%nat ->
  (options_end tail \/ operand_next tail -> parse_args_posix fuel (flat_map spelling l ++ tail) =
     Some (Ret (match devices_in l with [] => BadArgument | _ => Success end, Namespace (devices_in l) (go_in l)))) /\
  (bare_late_device (devices_in l) tail -> parse_args_posix fuel (flat_map spelling l ++ tail) = Some UB) /\
  (rejected (devices_in l) tail -> parse_args_posix fuel (flat_map spelling l ++ tail) =
     Some (Ret (SuccessPartial, Namespace (devices_in l) (go_in l)))).
Proof.
  intros l tail fuel W O N F. unfold parse_args_posix. change long_options with (table false).
  change (table false) with (table (seen_of [])).
  destruct (posix_forms l fuel tail [] false W O F N) as (k & K & ->). cbn [app orb].
  set (ds := devices_in l). clearbody ds. set (g := go_in l). clearbody g. clear l W N F O.
  destruct k as [|k]; [lia|]. split; [|split].
  - intros [[->|[rest ->]]|(w & rest & -> & H)]; cbn [parse_loop_posix].
    + destruct ds; reflexivity.
    + destruct ds; reflexivity.
    + rewrite (posix_operand _ _ _ H). destruct ds; reflexivity.
  - intros (D & a & rest & A & ->). destruct ds as [|d ds]; [congruence|]. cbn [seen_of parse_loop_posix].
    rewrite posix_option by (eexists _, _; reflexivity). cbn [append getopt_long].
    change (negb (Ascii.eqb "-" "-")) with false. change (Ascii.eqb "-" "-") with true. cbn iota.
    rewrite (abbr_body _ _ A). destruct (prefix_no_eq a "device" (proj2 A) device_no_eq "") as [_ ->].
    rewrite (abbr_device a true A). reflexivity.
  - intros (E & B & X). assert (OW : exists w rest, tail = w :: rest /\ option_word w).
    { destruct X as [(D & a & n & rest & A & ->)|X]; [eexists _, _; split; [reflexivity|]; eexists _, _; reflexivity|].
      destruct tail as [|w rest]; [exfalso; apply E; left; reflexivity|]. exists w, rest. split; [reflexivity|].
      destruct (option_word_dec w) as [H|H]; [exact H|]. exfalso. exact (X (Operand w) rest H eq_refl). }
    destruct OW as (w & rest & -> & OW). cbn [parse_loop_posix]. rewrite (posix_option _ _ _ OW).
    destruct X as [(D & a & n & rest' & A & T)|X].
    + destruct ds as [|d ds]; [congruence|]. rewrite T.
      pose proof (getopt_form (EqualsLong a n) true rest' A) as G. cbn [spelling app] in G. cbn [seen_of]. now rewrite G.
    + destruct (next_words w rest) as [(x & r & Wx & Q)|[->|[(a & A & -> & ->)|(_ & Q & _)]]].
      * exfalso. exact (X x r Wx Q).
      * exfalso. apply E. right. eauto.
      * cbn [append getopt_long].
        change (negb (Ascii.eqb "-" "-")) with false. change (Ascii.eqb "-" "-") with true. cbn iota.
        rewrite (abbr_body _ _ A). destruct (prefix_no_eq a "device" (proj2 A) device_no_eq "") as [_ ->].
        rewrite (abbr_device a _ A). destruct ds as [|d ds]; [reflexivity|].
        exfalso. apply B. split; [discriminate|]. eauto.
      * destruct (Q (seen_of ds)) as (r & ->). reflexivity.
Qed.

Lemma first_operand : forall l, (forall x, In x l -> ~ is_operand x) \/
  exists before w after, l = before ++ Operand w :: after /\ (forall x, In x before -> ~ is_operand x).
Proof.
  induction l as [|x l IH]; [left; intros ? []|].
  destruct x as [w|n|n|a n|a n|a]; [right; exists [], w, l; split; [reflexivity|intros ? []]|..];
    (destruct IH as [H|(b & w & aft & -> & H)];
      [left; intros y [<-|Y]; [cbn; tauto|now apply H]
      |right; eexists (_ :: b), w, aft; split; [reflexivity|]; intros y [<-|Y]; [cbn; tauto|now apply H]]).
Qed.

Lemma split_posix : forall args, exists l tail, args = flat_map spelling l ++ tail /\ Forall well_formed l /\
  (forall x, In x l -> ~ is_operand x) /\ no_late_long l /\
  (options_end tail \/ operand_next tail \/ bare_late_device (devices_in l) tail \/ rejected (devices_in l) tail).
Proof.
  intros args. destruct (split_command_line args) as (l & tail & A & W & N & T).
  destruct (first_operand l) as [H|(b & w & aft & E & H)].
  - exists l, tail. split; [exact A|]. split; [exact W|]. split; [exact H|]. split; [exact N|]. tauto.
  - exists b, (w :: flat_map spelling aft ++ tail). rewrite E in A, W. apply Forall_app in W. destruct W as [W1 W2].
    split; [rewrite A, flat_map_app; cbn [flat_map spelling app]; now rewrite <- app_assoc|].
    split; [exact W1|]. split; [exact H|]. split.
    + intros b' x a' E' LD. apply (N b' x (a' ++ Operand w :: aft)); [|exact LD]. rewrite E, E', <- app_assoc. reflexivity.
    + right. left. exists w, (flat_map spelling aft ++ tail). split; [reflexivity|]. inversion W2 as [|? ? W3 _]. exact W3.
Qed.
