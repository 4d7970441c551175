(** Proofs about arbitrary command lines. *)
From Coq Require Import ZArith Bool Ascii String List Lia.
From Verif Require Import Outcome ResultModel ParseArgsModel ParseArgsSpec ParseArgsProofs.
Import ListNotations.
Open Scope string_scope.
Open Scope list_scope.

(** ** Names *)
Lemma prefix_head : forall c t c' t', prefix (String c t) (String c' t') = true -> c = c' /\ prefix t t' = true.
Proof. intros c t c' t' H. cbn in H. destruct (ascii_dec c c'); [auto|discriminate]. Qed.

Lemma prefix_refl : forall s, prefix s s = true.
Proof. induction s as [|c s IH]; cbn; [reflexivity|]. destruct (ascii_dec c c); congruence. Qed.

Lemma prefix_no_eq : forall a full, prefix a full = true -> (forall n, split_eq (full ++ n)%string = let '(x, v) := split_eq n in ((full ++ x)%string, v)) ->
  forall n, split_eq (a ++ "=" ++ n)%string = (a, Some n) /\ split_eq a = (a, None).
Proof.
  induction a as [|c a IH]; intros full H N n.
  - split; reflexivity.
  - destruct full as [|c' full]; [discriminate|]. apply prefix_head in H. destruct H as [-> H].
    assert (C : Ascii.eqb c' "=" = false /\ forall n, split_eq (full ++ n)%string = let '(x, v) := split_eq n in ((full ++ x)%string, v)).
    { destruct (Ascii.eqb c' "=") eqn:E.
      - specialize (N EmptyString). cbn in N. rewrite E in N. discriminate.
      - split; [reflexivity|]. intros m. specialize (N m). cbn [append split_eq] in N. rewrite E in N.
        destruct (split_eq (full ++ m)) as [p q], (split_eq m) as [x v]. congruence. }
    destruct C as [C N']. destruct (IH full H N' n) as [A B]. cbn [append split_eq]. rewrite C.
    cbn [append] in A. rewrite A, B. auto.
Qed.

Lemma device_no_eq : forall n, split_eq ("device" ++ n)%string = let '(x, v) := split_eq n in (("device" ++ x)%string, v).
Proof. intros n. cbn. destruct (split_eq n). reflexivity. Qed.
Lemma continuous_no_eq : forall n, split_eq ("continuous" ++ n)%string = let '(x, v) := split_eq n in (("continuous" ++ x)%string, v).
Proof. intros n. cbn. destruct (split_eq n). reflexivity. Qed.

Lemma split_eq_inv : forall s a v, split_eq s = (a, v) -> s = match v with None => a | Some n => (a ++ "=" ++ n)%string end.
Proof.
  induction s as [|c s IH]; intros a v H; cbn in H.
  - injection H as <- <-. reflexivity.
  - destruct (Ascii.eqb c "=") eqn:E.
    + injection H as <- <-. apply Ascii.eqb_eq in E. subst c. reflexivity.
    + destruct (split_eq s) as [n w] eqn:S. injection H as <- <-. specialize (IH n w eq_refl).
      destruct w; cbn [append] in *; congruence.
Qed.

Definition dev (seen : bool) : long_option := LongOption "device" (if seen then 0 else 1)%Z "d".
Definition cont : long_option := LongOption "continuous" 0 "c".
Definition cshort : long_option := LongOption "c" 0 "e".

Lemma not_both : forall a, a <> ""%string -> prefix a "device" = true -> prefix a "continuous" = true -> False.
Proof.
  intros [|c a] N H1 H2; [congruence|]. apply prefix_head in H1. apply prefix_head in H2. destruct H1 as [-> _], H2 as [H _].
  discriminate.
Qed.
Lemma prefix_c : forall a, prefix a "c" = true -> a = ""%string \/ a = "c"%string.
Proof.
  intros [|c a] H; [auto|]. apply prefix_head in H. destruct H as [-> H]. destruct a; [auto|discriminate].
Qed.

Lemma find_long_spec : forall a seen, find_long a (table seen) =
  if String.eqb a "" then None
  else if prefix a "device" then Some (0%nat, dev seen)
  else if prefix a "continuous" then (if String.eqb a "c" then Some (2%nat, cshort) else Some (1%nat, cont))
  else None.
Proof.
  intros a seen. unfold find_long, table. cbn [find_exact find_prefix lo_name]. fold (dev seen) cont cshort.
  destruct (String.eqb_spec a "") as [->|N]; [reflexivity|].
  destruct (String.eqb_spec a "device") as [->|N1]; [reflexivity|].
  destruct (String.eqb_spec a "continuous") as [->|N2]; [reflexivity|].
  destruct (String.eqb_spec a "c") as [->|N3]; [reflexivity|].
  destruct (prefix a "c") eqn:C; [apply prefix_c in C; tauto|].
  destruct (prefix a "device") eqn:D, (prefix a "continuous") eqn:E; try reflexivity.
  exfalso. eapply not_both; eauto.
Qed.

(** ** One form *)
Lemma abbr_device : forall a seen, abbreviates a "device" -> find_long a (table seen) = Some (0%nat, dev seen).
Proof.
  intros a seen [N H]. rewrite find_long_spec. apply String.eqb_neq in N. now rewrite N, H.
Qed.
Lemma abbr_continuous : forall a seen, abbreviates a "continuous" ->
  exists i o, find_long a (table seen) = Some (i, o) /\ lo_has_arg o = 0%Z /\ (lo_val o = "c" \/ lo_val o = "e")%char.
Proof.
  intros a seen [N H]. rewrite find_long_spec.
  destruct (prefix a "device") eqn:D; [exfalso; eapply not_both; eauto|].
  apply String.eqb_neq in N. rewrite N, H.
  destruct (String.eqb a "c"); do 2 eexists; split; try reflexivity; split; auto.
Qed.

Lemma abbr_body : forall a full, abbreviates a full -> String.eqb a "" = false.
Proof. intros a full [N _]. now apply String.eqb_neq. Qed.

Lemma app_not_empty : forall a b, String.eqb (a ++ "=" ++ b)%string "" = false.
Proof. intros [|c a] b; reflexivity. Qed.

Lemma getopt_form : forall x seen rest, well_formed x ->
  getopt_long (spelling x ++ rest) (table seen) =
  match x with
  | Operand _ => getopt_long rest (table seen)
  | NextD n | GluedD n => (Option_ None "d"%char (Some n), rest)
  | NextLong _ n => if seen then (Option_ (Some 0%nat) "d"%char None, n :: rest) else (Option_ (Some 0%nat) "d"%char (Some n), rest)
  | EqualsLong _ n => if seen then (Question, rest) else (Option_ (Some 0%nat) "d"%char (Some n), rest)
  | Go a => match find_long a (table seen) with Some (i, o) => (Option_ (Some i) (lo_val o) None, rest) | None => (Question, rest) end
  end.
Proof.
  intros [w|n|n|a n|a n|a] seen rest W; cbn [spelling well_formed app] in *.
  - destruct w as [|c0 [|c1 body]]; try reflexivity. cbn [getopt_long].
    destruct (Ascii.eqb_spec c0 "-") as [->|N]; [|reflexivity]. exfalso. apply W. exists c1, body. reflexivity.
  - reflexivity.
  - cbn [append getopt_long]. change (negb (Ascii.eqb "-" "-")) with false. change (Ascii.eqb "d" "-") with false.
    change (Ascii.eqb "d" "d") with true. cbn iota. apply String.eqb_neq in W. now rewrite W.
  - cbn [append getopt_long]. change (negb (Ascii.eqb "-" "-")) with false. change (Ascii.eqb "-" "-") with true. cbn iota.
    rewrite (abbr_body _ _ W). destruct (prefix_no_eq a "device" (proj2 W) device_no_eq "") as [_ ->].
    rewrite (abbr_device a seen W). destruct seen; reflexivity.
  - cbn [append getopt_long]. change (negb (Ascii.eqb "-" "-")) with false. change (Ascii.eqb "-" "-") with true. cbn iota.
    pose proof (app_not_empty a n) as E. cbn [append] in E. rewrite E.
    destruct (prefix_no_eq a "device" (proj2 W) device_no_eq n) as [S _]. cbn [append] in S. rewrite S.
    rewrite (abbr_device a seen W). destruct seen; reflexivity.
  - cbn [append getopt_long]. change (negb (Ascii.eqb "-" "-")) with false. change (Ascii.eqb "-" "-") with true. cbn iota.
    rewrite (abbr_body _ _ W). destruct (prefix_no_eq a "continuous" (proj2 W) continuous_no_eq "") as [_ ->].
    destruct (abbr_continuous a seen W) as (i & o & -> & H & _). rewrite H. reflexivity.
Qed.

(** ** What can come next *)
Lemma option_word_dec : forall w, {option_word w} + {~ option_word w}.
Proof.
  intros [|c0 [|c1 t]].
  - right. intros (c & t & E). discriminate.
  - right. intros (c & t & E). discriminate.
  - destruct (ascii_dec c0 "-") as [->|N].
    + left. exists c1, t. reflexivity.
    + right. intros (c & t' & E). cbn in E. congruence.
Qed.

(** The next words are a form, or the options end, or getopt_long answers '?', or the word is a bare long device option. *)
Lemma next_words : forall w rest,
  (exists x r, well_formed x /\ w :: rest = spelling x ++ r) \/
  w = "--"%string \/
  (exists a, abbreviates a "device" /\ w = ("--" ++ a)%string /\ rest = []) \/
  option_word w /\ (forall seen, exists r, getopt_long (w :: rest) (table seen) = (Question, r)) /\
   forall a, abbreviates a "device" -> w <> ("--" ++ a)%string.
Proof.
  intros w rest. destruct (option_word_dec w) as [O|O].
  2: { left. exists (Operand w), rest. auto. }
  pose proof O as OW. destruct O as (c1 & body & ->). cbn [append] in *.
  destruct (ascii_dec c1 "-") as [->|N1].
  - destruct (string_dec body "") as [->|NB]; [right; left; reflexivity|].
    destruct (split_eq body) as [a v] eqn:S.
    pose proof (split_eq_inv body a v S) as B.
    destruct (string_dec a "") as [->|NA].
    + right. right. right. split; [exact OW|]. split.
      * intros seen. eexists. cbn [getopt_long]. change (negb (Ascii.eqb "-" "-")) with false. change (Ascii.eqb "-" "-") with true.
        cbn iota. rewrite (proj2 (String.eqb_neq _ _) NB), S, find_long_spec. reflexivity.
      * intros a A E. cbn in E. assert (body = a) by congruence. subst a.
        destruct (prefix_no_eq body "device" (proj2 A) device_no_eq "") as [_ Q]. rewrite Q in S.
        assert (body = ""%string) by congruence. congruence.
    + destruct (prefix a "device") eqn:D.
      * destruct v as [n|].
        -- left. exists (EqualsLong a n), rest. split; [split; auto|]. subst body. reflexivity.
        -- destruct rest as [|n rest].
           ++ right. right. left. exists a. split; [split; auto|]. split; [now subst body|reflexivity].
           ++ left. exists (NextLong a n), rest. split; [split; auto|]. now subst body.
      * destruct (prefix a "continuous") eqn:C.
        -- destruct v as [n|].
           ++ right. right. right. split; [exact OW|]. split.
              ** intros seen. eexists. cbn [getopt_long]. change (negb (Ascii.eqb "-" "-")) with false. change (Ascii.eqb "-" "-") with true.
                 cbn iota. rewrite (proj2 (String.eqb_neq _ _) NB), S.
                 destruct (abbr_continuous a seen (conj NA C)) as (i & o & -> & H & _). rewrite H. reflexivity.
              ** intros a' A E. cbn in E. assert (body = a') by congruence. subst a'.
                 destruct (prefix_no_eq body "device" (proj2 A) device_no_eq "") as [_ Q]. congruence.
           ++ left. exists (Go a), rest. split; [split; auto|]. now subst body.
        -- right. right. right. split; [exact OW|]. split.
           ++ intros seen. eexists. cbn [getopt_long]. change (negb (Ascii.eqb "-" "-")) with false. change (Ascii.eqb "-" "-") with true.
              cbn iota. rewrite (proj2 (String.eqb_neq _ _) NB), S, find_long_spec, D, C.
              rewrite (proj2 (String.eqb_neq _ _) NA). reflexivity.
           ++ intros a' A E. cbn in E. assert (body = a') by congruence. subst a'.
              destruct (prefix_no_eq body "device" (proj2 A) device_no_eq "") as [_ Q].
              assert (a = body) by congruence. subst a. destruct A as [_ A]. congruence.
  - destruct (ascii_dec c1 "d") as [->|N2].
    + destruct (string_dec body "") as [->|NB].
      * destruct rest as [|n rest].
        -- right. right. right. split; [exact OW|]. split.
           ++ intros seen. eexists. reflexivity.
           ++ intros a A E. discriminate.
        -- left. exists (NextD n), rest. split; [exact Logic.I|]. reflexivity.
      * left. exists (GluedD body), rest. split; [exact NB|]. reflexivity.
    + right. right. right. split; [exact OW|]. split.
      * intros seen. eexists. cbn [getopt_long]. change (negb (Ascii.eqb "-" "-")) with false. cbn iota.
        rewrite (proj2 (Ascii.eqb_neq _ _) N1), (proj2 (Ascii.eqb_neq _ _) N2). reflexivity.
      * intros a A E. cbn in E. congruence.
Qed.

(** ** Parsing *)
Definition seen_of (ds : list string) : bool := match ds with [] => false | _ => true end.

Lemma seen_snoc : forall ds n, seen_of (ds ++ [n]) = true.
Proof. intros [|d ds] n; reflexivity. Qed.

Lemma parse_operand : forall fuel w rest seen ns, ~ option_word w ->
  parse_loop fuel (w :: rest) (table seen) ns = parse_loop fuel rest (table seen) ns.
Proof.
  intros [|k] w rest seen ns W; [reflexivity|]. cbn [parse_loop].
  pose proof (getopt_form (Operand w) seen rest W) as G. cbn [spelling app] in G. now rewrite G.
Qed.

Lemma parse_form : forall fuel x rest ds c, well_formed x -> (is_long_device x -> ds = []) ->
  (exists w, x = Operand w) \/
  parse_loop (S fuel) (spelling x ++ rest) (table (seen_of ds)) (Namespace ds c) =
  parse_loop fuel rest (table (seen_of (ds ++ device_in x))) (Namespace (ds ++ device_in x) (c || match x with Go _ => true | _ => false end)).
Proof.
  intros fuel x rest ds c W L. destruct x as [w|n|n|a n|a n|a]; [left; eauto| right..]; cbn [parse_loop]; rewrite (getopt_form _ _ _ W); cbn [device_in].
  - change (Ascii.eqb "d" "e" || Ascii.eqb "d" "c")%char with false. change (Ascii.eqb "d" "d") with true. cbn iota.
    rewrite clear_table, seen_snoc, orb_false_r. reflexivity.
  - change (Ascii.eqb "d" "e" || Ascii.eqb "d" "c")%char with false. change (Ascii.eqb "d" "d") with true. cbn iota.
    rewrite clear_table, seen_snoc, orb_false_r. reflexivity.
  - rewrite (L Logic.I). cbn [seen_of]. change (Ascii.eqb "d" "e" || Ascii.eqb "d" "c")%char with false. change (Ascii.eqb "d" "d") with true. cbn iota.
    rewrite clear_table, orb_false_r. reflexivity.
  - rewrite (L Logic.I). cbn [seen_of]. change (Ascii.eqb "d" "e" || Ascii.eqb "d" "c")%char with false. change (Ascii.eqb "d" "d") with true. cbn iota.
    rewrite clear_table, orb_false_r. reflexivity.
  - destruct (abbr_continuous a (seen_of ds) W) as (i & o & -> & _ & V).
    replace (Ascii.eqb (lo_val o) "e" || Ascii.eqb (lo_val o) "c")%char with true by (destruct V as [->| ->]; reflexivity).
    rewrite app_nil_r, orb_true_r. reflexivity.
Qed.

Lemma parse_forms : forall l fuel tail ds c, Forall well_formed l -> (length (flat_map spelling l ++ tail) < fuel)%nat ->
  (forall before x after, l = before ++ x :: after -> is_long_device x -> ds ++ devices_in before = []) ->
  exists k, (length tail < k)%nat /\
    parse_loop fuel (flat_map spelling l ++ tail) (table (seen_of ds)) (Namespace ds c) =
    parse_loop k tail (table (seen_of (ds ++ devices_in l))) (Namespace (ds ++ devices_in l) (c || go_in l)).
Proof.
  induction l as [|x l IH]; intros fuel tail ds c W F L.
  - exists fuel. cbn [flat_map app devices_in go_in existsb] in *. rewrite app_nil_r, orb_false_r. auto.
  - inversion W as [|? ? W1 W2]; subst. cbn [flat_map] in *. rewrite <- app_assoc in *.
    assert (LX : is_long_device x -> ds = []).
    { intros H. specialize (L [] x l eq_refl H). cbn in L. now rewrite app_nil_r in L. }
    assert (LL : forall before y after, l = before ++ y :: after -> is_long_device y -> (ds ++ device_in x) ++ devices_in before = []).
    { intros b y a E H. rewrite <- app_assoc. apply (L (x :: b) y a); [now subst l|exact H]. }
    assert (SP : (1 <= length (spelling x))%nat) by (destruct x; cbn; lia).
    rewrite app_length in F. destruct fuel as [|fuel]; [lia|].
    replace (ds ++ devices_in (x :: l)) with ((ds ++ device_in x) ++ devices_in l) by (now rewrite <- app_assoc).
    replace (c || go_in (x :: l)) with ((c || match x with Go _ => true | _ => false end) || go_in l)
      by (cbn [go_in existsb]; now rewrite orb_assoc).
    destruct (parse_form fuel x (flat_map spelling l ++ tail) ds c W1 LX) as [(w & ->)|E].
    + cbn [spelling app device_in] in *. rewrite parse_operand by exact W1.
      rewrite app_nil_r in *. rewrite orb_false_r. apply IH; auto. cbn in F. lia.
    + rewrite E. apply IH; auto. lia.
Qed.

Lemma parse_all : forall l tail fuel, Forall well_formed l -> no_late_long l -> (length (flat_map spelling l ++ tail) < fuel)%nat ->
  (options_end tail -> parse_args fuel (flat_map spelling l ++ tail) =
     Some (Ret (match devices_in l with [] => BadArgument | _ => Success end, Namespace (devices_in l) (go_in l)))) /\
  (bare_late_device (devices_in l) tail -> parse_args fuel (flat_map spelling l ++ tail) = Some UB) /\
  (rejected (devices_in l) tail -> parse_args fuel (flat_map spelling l ++ tail) =
     Some (Ret (SuccessPartial, Namespace (devices_in l) (go_in l)))).
Proof.
  intros l tail fuel W N F. unfold parse_args. change long_options with (table false).
  change (table false) with (table (seen_of [])).
  destruct (parse_forms l fuel tail [] false W F N) as (k & K & ->). cbn [app orb].
  set (ds := devices_in l). clearbody ds. set (g := go_in l). clearbody g. clear l W N F.
  destruct k as [|k]; [lia|]. split; [|split].
  - intros [->|[rest ->]]; cbn [parse_loop getopt_long]; destruct ds; reflexivity.
  - intros (D & a & rest & A & ->). destruct ds as [|d ds]; [congruence|]. cbn [seen_of parse_loop append getopt_long].
    change (negb (Ascii.eqb "-" "-")) with false. change (Ascii.eqb "-" "-") with true. cbn iota.
    rewrite (abbr_body _ _ A). destruct (prefix_no_eq a "device" (proj2 A) device_no_eq "") as [_ ->].
    rewrite (abbr_device a true A). reflexivity.
  - intros (E & B & [(D & a & n & rest & A & ->)|X]).
    + destruct ds as [|d ds]; [congruence|]. cbn [parse_loop].
      pose proof (getopt_form (EqualsLong a n) true rest A) as G. cbn [spelling app] in G. cbn [seen_of]. now rewrite G.
    + destruct tail as [|w rest]; [exfalso; apply E; left; reflexivity|].
      destruct (next_words w rest) as [(x & r & Wx & Q)|[->|[(a & A & -> & ->)|(_ & Q & _)]]].
      * exfalso. exact (X x r Wx Q).
      * exfalso. apply E. right. eauto.
      * cbn [parse_loop append getopt_long].
        change (negb (Ascii.eqb "-" "-")) with false. change (Ascii.eqb "-" "-") with true. cbn iota.
        rewrite (abbr_body _ _ A). destruct (prefix_no_eq a "device" (proj2 A) device_no_eq "") as [_ ->].
        rewrite (abbr_device a _ A). destruct ds as [|d ds]; [reflexivity|].
        exfalso. apply B. split; [discriminate|]. eauto.
      * cbn [parse_loop]. destruct (Q (seen_of ds)) as (r & ->). reflexivity.
Qed.

Lemma classic_long : forall x ds, (is_long_device x -> ds = []) \/ (is_long_device x /\ ds <> (@nil string)).
Proof.
  intros x [|d ds]; [auto|]. destruct x; cbn; [left; contradiction.. | right | right | left; contradiction];
    (split; [exact Logic.I|discriminate]).
Qed.

(** Every command line is some forms and then one of the three ends. *)
Lemma split_command_line_from : forall m args ds, (length args < m)%nat ->
  exists l tail, args = flat_map spelling l ++ tail /\ Forall well_formed l /\
    (forall before x after, l = before ++ x :: after -> is_long_device x -> ds ++ devices_in before = []) /\
    (options_end tail \/ bare_late_device (ds ++ devices_in l) tail \/ rejected (ds ++ devices_in l) tail).
Proof.
  induction m as [|m IH]; intros args ds M; [lia|].
  assert (HERE : options_end args \/ bare_late_device ds args \/ rejected ds args ->
    exists l tail, args = flat_map spelling l ++ tail /\ Forall well_formed l /\
    (forall before x after, l = before ++ x :: after -> is_long_device x -> ds ++ devices_in before = []) /\
    (options_end tail \/ bare_late_device (ds ++ devices_in l) tail \/ rejected (ds ++ devices_in l) tail)).
  { intros H. exists [], args. split; [reflexivity|]. split; [constructor|]. split.
    - intros b x a E. destruct b; discriminate.
    - cbn [devices_in flat_map]. rewrite app_nil_r. exact H. }
  destruct args as [|w rest]; [apply HERE; left; left; reflexivity|].
  assert (END : w = "--"%string \/ w <> "--"%string) by (destruct (string_dec w "--"); auto).
  destruct END as [->|NE]; [apply HERE; left; right; eauto|].
  assert (NO : ~ options_end (w :: rest)).
  { intros [E|[r E]]; [discriminate|]. congruence. }
  destruct (next_words w rest) as [(x & r & Wx & Q)|[E|[(a & A & -> & ->)|(OW & Q & B)]]].
  - destruct (classic_long x ds) as [OK|[LD D]].
    + assert (SP : (1 <= length (spelling x))%nat) by (destruct x; cbn; lia).
      assert (R : (length r < m)%nat) by (rewrite Q, app_length in M; lia).
      destruct (IH r (ds ++ device_in x) R) as (l & tail & -> & Wl & Ll & T).
      exists (x :: l), tail. split; [rewrite Q; cbn [flat_map]; now rewrite app_assoc|]. split; [now constructor|]. split.
      * intros b y a E H. destruct b as [|z b]; cbn [app] in E; injection E as E1 E2.
        -- subst y. cbn. rewrite app_nil_r. auto.
        -- subst z. change (devices_in (x :: b)) with (device_in x ++ devices_in b). rewrite app_assoc. eapply Ll; eauto.
      * change (devices_in (x :: l)) with (device_in x ++ devices_in l). rewrite app_assoc. exact T.
    + apply HERE. right. destruct x as [?|?|?|a n|a n|?]; cbn in LD; try contradiction; cbn [spelling app] in Q.
      * left. split; [exact D|]. exists a, (n :: r). auto.
      * right. split; [exact NO|]. split.
        -- intros (_ & a' & r' & A' & E). injection Q as Q1 Q2. injection E as E1 E2. rewrite Q1 in E1. cbn in E1.
           assert (E3 : (a ++ "=" ++ n)%string = a') by (cbn; congruence).
           destruct (prefix_no_eq a' "device" (proj2 A') device_no_eq "") as [_ S1].
           destruct (prefix_no_eq a "device" (proj2 Wx) device_no_eq n) as [S2 _]. rewrite E3 in S2. congruence.
        -- left. split; [exact D|]. exists a, n, r. split; [exact Wx|]. exact Q.
  - congruence.
  - destruct ds as [|d ds].
    + apply HERE. right. right. split; [exact NO|]. split; [intros [X _]; congruence|]. right.
      intros x r Wx Q. pose proof (getopt_form x false r Wx) as G. rewrite <- Q in G.
      cbn [append getopt_long] in G. change (negb (Ascii.eqb "-" "-")) with false in G. change (Ascii.eqb "-" "-") with true in G.
      cbn iota in G. rewrite (abbr_body _ _ A) in G. destruct (prefix_no_eq a "device" (proj2 A) device_no_eq "") as [_ S].
      rewrite S, (abbr_device a false A) in G. cbn in G.
      destruct x as [w|n|n|a' n|a' n|a']; try discriminate; cbn [spelling app well_formed] in *.
      * injection Q as Q _. subst w. apply Wx. exists "-"%char, a. reflexivity.
      * destruct (abbr_continuous a' false Wx) as (i & o & E & _). rewrite E in G. discriminate.
    + apply HERE. right. left. split; [discriminate|]. eauto.
  - apply HERE. right. right. split; [exact NO|]. split.
    + intros (_ & a & r & A & E). injection E as E _. exact (B a A E).
    + right. intros x r Wx E. destruct (Q false) as (r1 & G). rewrite E, (getopt_form x false r Wx) in G.
      destruct x as [w'|n|n|a' n|a' n|a']; try discriminate; cbn [spelling app well_formed] in *.
      * injection E as E1 E2. subst w'.
        contradiction.
      * destruct (abbr_continuous a' false Wx) as (i & o & F & _). rewrite F in G. discriminate.
Qed.

Lemma split_command_line : forall args, exists l tail, args = flat_map spelling l ++ tail /\ Forall well_formed l /\
  no_late_long l /\ (options_end tail \/ bare_late_device (devices_in l) tail \/ rejected (devices_in l) tail).
Proof.
  intros args. destruct (split_command_line_from (S (length args)) args [] ltac:(lia)) as (l & tail & A & B & C & D).
  exists l, tail. auto.
Qed.

(** At most one of the three ends applies. *)
Lemma ends_apart : forall ds tail, (options_end tail -> ~ bare_late_device ds tail /\ ~ rejected ds tail) /\
  (bare_late_device ds tail -> ~ rejected ds tail).
Proof.
  intros ds tail. split.
  - intros E. split; [|intros (N & _); contradiction]. intros (_ & a & r & A & T). destruct E as [E|[r' E]]; rewrite E in T; [discriminate|].
    injection T as T _. destruct A as [A _]. cbn in T. congruence.
  - intros B (_ & N & _). contradiction.
Qed.
