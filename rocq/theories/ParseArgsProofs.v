(** Proofs about command line parsing. *)
From Coq Require Import ZArith Bool Ascii String List Lia.
From Verif Require Import Outcome ResultModel ParseArgsModel ParseArgsSpec.
Import ListNotations.
Open Scope list_scope.

(** The option table before and after a device was given. *)
Definition table (seen : bool) : list long_option :=
  [LongOption "device" (if seen then 0 else 1)%Z "d"; LongOption "continuous" 0 "c"; LongOption "c" 0 "e"].

Lemma getopt_items : forall x rest seen, getopt_long (words x ++ rest) (table seen) =
  match x with
  | ShortDevice n => (Option_ None "d"%char (Some n), rest)
  | LongDevice n => if seen then (Option_ (Some 0%nat) "d"%char None, n :: rest) else (Option_ (Some 0%nat) "d"%char (Some n), rest)
  | Continuous => (Option_ (Some 1%nat) "c"%char None, rest)
  | ShortContinuous => (Option_ (Some 2%nat) "e"%char None, rest)
  end.
Proof. intros [n|n| |] rest [|]; reflexivity. Qed.

Lemma clear_table : forall seen, clear_has_arg 0 (table seen) = table true.
Proof. intros [|]; reflexivity. Qed.

Lemma parse_items : forall l fuel seen ns, (length l < fuel)%nat ->
  let late := exists before n after, l = before ++ LongDevice n :: after /\ (seen = true \/ devices before <> []) in
  (late -> parse_loop fuel (command_line l) (table seen) ns = Some UB) /\
  (~ late -> parse_loop fuel (command_line l) (table seen) ns =
     Some (Ret (if seen || negb (match devices l with [] => true | _ => false end) then Success else BadArgument,
                Namespace (ns_devices ns ++ devices l) (ns_continuous ns || continuous l)))).
Proof.
  induction l as [|x l IH]; intros fuel seen ns F late.
  - destruct fuel; [lia|]. split.
    + intros (b & n & a & E & _). destruct b; discriminate.
    + intros _. destruct ns as [d c]. cbn [command_line flat_map devices continuous existsb ns_devices ns_continuous].
      rewrite app_nil_r, !orb_false_r. destruct seen; reflexivity.
  - destruct fuel as [|k]; [lia|]. cbn [length] in F.
    change (command_line (x :: l)) with (words x ++ command_line l). cbn [parse_loop]. rewrite getopt_items.
    assert (DEV : forall y, devices (y :: l) = devices_of y ++ devices l) by reflexivity.
    assert (CON : continuous (x :: l) = is_continuous x || continuous l) by reflexivity.
    assert (LATE : late <-> (exists n, x = LongDevice n) /\ seen = true \/
      exists before n after, l = before ++ LongDevice n :: after /\ (seen = true \/ devices_of x ++ devices before <> [])).
    { unfold late. split.
      - intros (b & n & a & E & H). destruct b as [|y b]; cbn [app] in E; injection E as E1 E2.
        + left. split; [eauto|]. destruct H as [H|H]; [auto|contradiction H; reflexivity].
        + right. subst y. exists b, n, a. split; auto.
      - intros [[[n ->] ->]|(b & n & a & -> & H)].
        + exists [], n, l. auto.
        + exists (x :: b), n, a. split; auto. }
    rewrite LATE, CON, DEV. clear LATE late CON DEV.
    destruct x as [n|n| |].
    + cbn [Ascii.eqb orb]. change (Ascii.eqb "d" "e" || Ascii.eqb "d" "c")%char with false.
      change (Ascii.eqb "d" "d")%char with true. cbn iota. rewrite clear_table.
      specialize (IH k true (Namespace (ns_devices ns ++ [n]) (ns_continuous ns))). destruct IH as [IH1 IH2]; [lia|].
      cbn [devices_of is_continuous orb app]. split.
      * intros [[[m Q] _]|(b & m & a & -> & _)]; [discriminate|]. apply IH1. exists b, m, a. auto.
      * intros N. rewrite IH2.
        -- cbn [ns_devices ns_continuous orb negb]. rewrite <- app_assoc, orb_true_r. reflexivity.
        -- intros (b & m & a & -> & _). apply N. right. exists b, m, a. split; auto. right. discriminate.
    + destruct seen.
      * split; [reflexivity|]. intros N. exfalso. apply N. left. eauto.
      * change (Ascii.eqb "d" "e" || Ascii.eqb "d" "c")%char with false. change (Ascii.eqb "d" "d")%char with true. cbn iota.
        rewrite clear_table.
        specialize (IH k true (Namespace (ns_devices ns ++ [n]) (ns_continuous ns))). destruct IH as [IH1 IH2]; [lia|].
        cbn [devices_of is_continuous orb app]. split.
        -- intros [[_ Q]|(b & m & a & -> & _)]; [discriminate|]. apply IH1. exists b, m, a. auto.
        -- intros N. rewrite IH2.
           ++ cbn [ns_devices ns_continuous orb negb]. rewrite <- app_assoc. reflexivity.
           ++ intros (b & m & a & -> & _). apply N. right. exists b, m, a. split; auto. right. discriminate.
    + change (Ascii.eqb "c" "e" || Ascii.eqb "c" "c")%char with true. cbn iota.
      specialize (IH k seen (Namespace (ns_devices ns) true)). destruct IH as [IH1 IH2]; [lia|].
      cbn [devices_of is_continuous orb app]. split.
      * intros [[[m Q] _]|H]; [discriminate|]. now apply IH1.
      * intros N. rewrite IH2; [|tauto]. cbn [ns_devices ns_continuous orb]. now rewrite orb_true_r.
    + change (Ascii.eqb "e" "e" || Ascii.eqb "e" "c")%char with true. cbn iota.
      specialize (IH k seen (Namespace (ns_devices ns) true)). destruct IH as [IH1 IH2]; [lia|].
      cbn [devices_of is_continuous orb app]. split.
      * intros [[[m Q] _]|H]; [discriminate|]. now apply IH1.
      * intros N. rewrite IH2; [|tauto]. cbn [ns_devices ns_continuous orb]. now rewrite orb_true_r.
Qed.

Lemma parse_documented : forall l fuel, (length l < fuel)%nat ->
  (late_long_device l -> parse_args fuel (command_line l) = Some UB) /\
  (~ late_long_device l -> parse_args fuel (command_line l) =
     Some (Ret (match devices l with [] => BadArgument | _ => Success end, Namespace (devices l) (continuous l)))).
Proof.
  intros l fuel F. destruct (parse_items l fuel false (Namespace [] false) F) as [A B]. cbn [orb app ns_devices ns_continuous] in *.
  unfold parse_args. change long_options with (table false). split.
  - intros (b & n & a & E & H). apply A. exists b, n, a. auto.
  - intros N. rewrite B.
    + destruct (devices l); reflexivity.
    + intros (b & n & a & E & [H|H]); [discriminate|]. apply N. exists b, n, a. auto.
Qed.

(** ** Arbitrary command lines *)

Lemma find_long_cases : forall name seen, find_long name (table seen) = None \/
  (exists o, find_long name (table seen) = Some (0%nat, o) /\ lo_val o = "d"%char /\ lo_has_arg o = if seen then 0%Z else 1%Z) \/
  (exists o, find_long name (table seen) = Some (1%nat, o) /\ lo_val o = "c"%char /\ lo_has_arg o = 0%Z) \/
  (exists o, find_long name (table seen) = Some (2%nat, o) /\ lo_val o = "e"%char /\ lo_has_arg o = 0%Z).
Proof.
  intros name seen. unfold find_long, table. cbn [find_exact find_prefix lo_name].
  destruct (String.eqb name "device"); [right; left; eexists; auto|].
  destruct (String.eqb name "continuous"); [right; right; left; eexists; auto|].
  destruct (String.eqb name "c"); [right; right; right; eexists; auto|].
  destruct (prefix name "device"), (prefix name "continuous"), (prefix name "c"); auto;
    [right; left|right; right; left|right; right; right]; eexists; auto.
Qed.

(** What getopt_long can answer on any words. *)
Lemma getopt_cases : forall args seen,
  (exists rest, getopt_long args (table seen) = (NoMore, rest)) \/
  (exists rest, getopt_long args (table seen) = (Question, rest)) \/
  (exists i v o rest, getopt_long args (table seen) = (Option_ i v o, rest) /\ (length rest < length args)%nat /\
     ((v = "c"%char \/ v = "e"%char) \/ v = "d"%char /\ (i = None \/ i = Some 0%nat) /\ (o = None -> seen = true /\ i = Some 0%nat))).
Proof.
  induction args as [|w args IH]; intros seen; [left; eexists; reflexivity|]. cbn [getopt_long].
  assert (SKIP : (exists rest, getopt_long args (table seen) = (NoMore, rest)) \/
    (exists rest, getopt_long args (table seen) = (Question, rest)) \/
    (exists i v o rest, getopt_long args (table seen) = (Option_ i v o, rest) /\ (length rest < length (w :: args))%nat /\
     ((v = "c"%char \/ v = "e"%char) \/ v = "d"%char /\ (i = None \/ i = Some 0%nat) /\ (o = None -> seen = true /\ i = Some 0%nat)))).
  { destruct (IH seen) as [H|[H|(i & v & o & rest & A & B & C)]]; auto. right. right. exists i, v, o, rest.
    split; auto. split; auto. cbn [length]. lia. }
  destruct w as [|c0 [|c1 body]]; auto. destruct (negb _); auto. clear IH SKIP.
  destruct (Ascii.eqb c1 "-").
  - destruct (String.eqb body ""); [left; eexists; reflexivity|]. destruct (split_eq body) as [name value].
    destruct (find_long_cases name seen) as [->|[(o & -> & V & H)|[(o & -> & V & H)|(o & -> & V & H)]]].
    + right. left. eexists. reflexivity.
    + rewrite H, V. unfold required_argument. destruct value as [v|]; destruct seen; cbn [Z.eqb].
      * right. left. eexists. reflexivity.
      * right. right. do 4 eexists. split; [reflexivity|]. split; [cbn [length]; lia|]. right. split; auto. split; auto. discriminate.
      * right. right. do 4 eexists. split; [reflexivity|]. split; [cbn [length]; lia|]. right. auto.
      * change (1 =? 1)%Z with true. cbn iota. destruct args as [|v args].
        -- right. left. eexists. reflexivity.
        -- right. right. do 4 eexists. split; [reflexivity|]. split; [cbn [length]; lia|]. right. split; auto. split; auto. discriminate.
    + rewrite H, V. unfold required_argument. destruct value; cbn [Z.eqb].
      * right. left. eexists. reflexivity.
      * right. right. do 4 eexists. split; [reflexivity|]. split; [cbn [length]; lia|]. auto.
    + rewrite H, V. unfold required_argument. destruct value; cbn [Z.eqb].
      * right. left. eexists. reflexivity.
      * right. right. do 4 eexists. split; [reflexivity|]. split; [cbn [length]; lia|]. auto.
  - destruct (Ascii.eqb c1 "d"); [|right; left; eexists; reflexivity]. destruct (String.eqb body "").
    + destruct args as [|v args].
      * right. left. eexists. reflexivity.
      * right. right. do 4 eexists. split; [reflexivity|]. split; [cbn [length]; lia|]. right. split; auto. split; auto. discriminate.
    + right. right. do 4 eexists. split; [reflexivity|]. split; [cbn [length]; lia|]. right. split; auto. split; auto. discriminate.
Qed.

(** Any words: parsing ends, the devices are given exactly when the result says so, and undefined behaviour needs an earlier
    device. *)
Lemma parse_any : forall fuel args seen ns, (length args < fuel)%nat -> (seen = true <-> ns_devices ns <> []) ->
  parse_loop fuel args (table seen) ns = Some UB \/
  exists r ns', parse_loop fuel args (table seen) ns = Some (Ret (r, ns')) /\
    (r = Success \/ r = BadArgument \/ r = SuccessPartial) /\
    (r = Success -> ns_devices ns' <> []) /\ (r = BadArgument -> ns_devices ns' = []).
Proof.
  induction fuel as [|k IH]; intros args seen ns F S; [lia|]. cbn [parse_loop].
  destruct (getopt_cases args seen) as [[rest ->]|[[rest ->]|(i & v & o & rest & -> & L & C)]].
  - right. destruct seen; cbn [table lo_has_arg].
    + change (0 =? required_argument)%Z with false. exists Success, ns. repeat split; auto; try (intros; now apply S); discriminate.
    + change (1 =? required_argument)%Z with true. exists BadArgument, ns. repeat split; auto; [discriminate|].
      intros _. destruct (ns_devices ns); auto. destruct S as [_ S]. discriminate S. discriminate.
  - right. exists SuccessPartial, ns. repeat split; auto; discriminate.
  - destruct C as [[->| ->]|(-> & I & O)].
    + change (Ascii.eqb "c" "e" || Ascii.eqb "c" "c")%char with true. cbn iota. apply IH; [lia|]. exact S.
    + change (Ascii.eqb "e" "e" || Ascii.eqb "e" "c")%char with true. cbn iota. apply IH; [lia|]. exact S.
    + change (Ascii.eqb "d" "e" || Ascii.eqb "d" "c")%char with false. change (Ascii.eqb "d" "d")%char with true. cbn iota.
      destruct o as [n|]; [|now left].
      assert (T : clear_has_arg (match i with Some j => j | None => 0%nat end) (table seen) = table true)
        by (destruct I as [-> | ->]; apply clear_table). rewrite T. apply IH; [lia|]. cbn [ns_devices].
      split; [|auto]. intros _. destruct (ns_devices ns); discriminate.
Qed.
