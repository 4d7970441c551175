(** Proofs for Props_Console.v. *)
From Coq Require Import ZArith Bool String Ascii List Lia DecimalString.
From Verif Require Import Outcome ResultModel CInt CanFrameModel CanFrameProofs SocketCanModel SocketCanSpec SocketCanProofs SocketCanHist
  GroupModel GroupSpec GroupProofs ManagerModel ParseArgsModel
  ManagerSpec ManagerProofs ParseArgsSpec ParseArgsProofs SatMathSpec LoopBackModel LoopBackSpec LoopBackProofs TimedModel TimedSpec TimedProofs
  MainModel MainProofs ConsoleModel ConsoleSpec.
Import ListNotations.
Open Scope string_scope.
Open Scope Z_scope.

(** ** Texts and lines *)
Fixpoint unlines (ls : list string) : string :=
  match ls with [] => "" | l :: t => l ++ endl ++ unlines t end.

Lemma append_assoc : forall a b c : string, (a ++ b) ++ c = a ++ (b ++ c).
Proof. induction a as [|x a IH]; intros; cbn; [reflexivity|now rewrite IH]. Qed.
Lemma append_nil_r : forall a : string, a ++ "" = a.
Proof. induction a as [|x a IH]; cbn; [reflexivity|now rewrite IH]. Qed.

Lemma list_app : forall a b, list_ascii_of_string (a ++ b) = (list_ascii_of_string a ++ list_ascii_of_string b)%list.
Proof. induction a as [|x a IH]; intros; cbn; [reflexivity|now rewrite IH]. Qed.

Lemma one_line_app : forall a b, one_line (a ++ b) <-> one_line a /\ one_line b.
Proof. intros a b. unfold one_line. rewrite list_app, in_app_iff. tauto. Qed.

Lemma lines_cons : forall l t, one_line l -> lines (l ++ endl ++ t) = l :: lines t.
Proof.
  induction l as [|c l IH]; intros t O.
  - reflexivity.
  - unfold one_line in O. cbn [list_ascii_of_string In] in O. cbn [String.append lines].
    destruct (Ascii.eqb_spec c newline); [tauto|]. rewrite IH by (unfold one_line; tauto). reflexivity.
Qed.

Lemma lines_unlines : forall ls, Forall one_line ls -> lines (unlines ls) = ls.
Proof. induction 1 as [|l ls O F IH]; [reflexivity|]. cbn [unlines]. rewrite lines_cons, IH; auto. Qed.

Lemma unlines_app : forall a b, unlines (a ++ b)%list = unlines a ++ unlines b.
Proof. induction a as [|l a IH]; intros; cbn [unlines app]; [reflexivity|]. rewrite IH, !append_assoc. reflexivity. Qed.

Lemma unlines_nil : forall ls, unlines ls = "" -> ls = [].
Proof.
  intros [|l ls]; [reflexivity|]. cbn [unlines]. destruct l; cbn; discriminate.
Qed.

(** A text is [ls], each line ended. *)
Definition is_text (s : string) (ls : list string) : Prop := s = unlines ls /\ Forall one_line ls.
Lemma is_text_nil : is_text "" [].
Proof. split; [reflexivity|constructor]. Qed.
Lemma is_text_app : forall a b la lb, is_text a la -> is_text b lb -> is_text (a ++ b) (la ++ lb)%list.
Proof. intros a b la lb [-> F] [-> G]. split; [now rewrite unlines_app|now apply Forall_app]. Qed.
Lemma is_text_line : forall l, one_line l -> is_text (l ++ endl) [l].
Proof. intros l O. split; [cbn [unlines]; now rewrite append_nil_r|auto]. Qed.
Lemma is_text_cons : forall l s ls, one_line l -> is_text s ls -> is_text (l ++ endl ++ s) (l :: ls).
Proof. intros l s ls O [-> F]. split; [reflexivity|auto]. Qed.
Lemma is_text_lines : forall s ls, is_text s ls -> lines s = ls.
Proof. intros s ls [-> F]. now apply lines_unlines. Qed.

(** Numbers have no line ends. *)
Lemma uint_one_line : forall d, one_line (NilEmpty.string_of_uint d).
Proof.
  unfold one_line. induction d; cbn [NilEmpty.string_of_uint list_ascii_of_string In]; auto;
    (intros [H|H]; [discriminate H|auto]).
Qed.
Lemma number_one_line : forall z, one_line (number z).
Proof.
  intros z. unfold number, NilZero.string_of_int. destruct (Z.to_int z) as [d|d].
  - unfold NilZero.string_of_uint. destruct d; try apply uint_one_line. intros [H|[]]; discriminate.
  - assert (H : forall s, one_line s -> one_line (String "-" s)).
    { intros s O. unfold one_line in *. cbn [list_ascii_of_string In]. intros [X|X]; [discriminate|auto]. }
    apply H. unfold NilZero.string_of_uint. destruct d; try apply uint_one_line. intros [X|[]]; discriminate.
Qed.

Fixpoint one_lineb (s : string) : bool :=
  match s with EmptyString => true | String c t => negb (Ascii.eqb c newline) && one_lineb t end.
Lemma one_lineb_true : forall s, one_lineb s = true -> one_line s.
Proof.
  induction s as [|c s IH]; intros H; [intros []|]. cbn [one_lineb] in H. apply andb_true_iff in H. destruct H as [A B].
  unfold one_line. cbn [list_ascii_of_string In]. intros [X|X]; [|exact (IH B X)].
  subst c. discriminate.
Qed.
Ltac literal := apply one_lineb_true; reflexivity.
Ltac one_line_tac := repeat (apply one_line_app; split); try literal; try apply number_one_line; auto.

(** ** Lines that cannot be confused *)
Lemma print_stats_line : forall name st, exists l, print_stats name st = l ++ endl /\
  (one_line name -> one_line l) /\ In ":"%char (list_ascii_of_string l).
Proof.
  intros name st. unfold print_stats. rewrite <- !append_assoc.
  eexists. split; [reflexivity|]. split.
  - intros O. rewrite !append_assoc. one_line_tac.
  - rewrite !append_assoc, !list_app. apply in_or_app. right. left. reflexivity.
Qed.

Lemma stats_not : forall l s, In ":"%char (list_ascii_of_string l) -> ~ In ":"%char (list_ascii_of_string s) -> l <> s.
Proof. intros l s A B ->. contradiction. Qed.

Lemma got_all_colon : forall name, ~ In ":"%char (list_ascii_of_string name) -> ~ In ":"%char (list_ascii_of_string (got_all name)).
Proof.
  intros name N. unfold got_all. rewrite list_app, in_app_iff. intros [H|H]; [|contradiction].
  cbn in H. repeat (destruct H as [H|H]; [discriminate|]). destruct H.
Qed.
Lemma passed_colon : ~ In ":"%char (list_ascii_of_string passed).
Proof. cbn. intros H. repeat (destruct H as [H|H]; [discriminate|]). destruct H. Qed.

(** Neither the line that says the test passed nor one about an interface named [name]. *)
Definition dull (name l : string) : Prop := l <> passed /\ l <> got_all name.

(** How often a line is said. *)
Definition said (l : string) (ls : list string) : nat := count_occ string_dec ls l.
Lemma said_app : forall l a b, said l (a ++ b)%list = (said l a + said l b)%nat.
Proof. intros. apply count_occ_app. Qed.
Lemma said_dull : forall name ls, Forall (dull name) ls -> said (got_all name) ls = 0%nat.
Proof.
  intros name ls F. apply count_occ_not_In. intros I. rewrite Forall_forall in F. apply F in I. destruct I as [_ I]. congruence.
Qed.

(** ** Names *)
Definition named (g : group) : Prop := Forall (fun s => one_line (getInterfaceName s)) g.

Lemma named_names : forall g g', map getInterfaceName g' = map getInterfaceName g -> named g -> named g'.
Proof.
  unfold named. intros g g' E N. rewrite <- (Forall_map getInterfaceName one_line) in *. now rewrite E.
Qed.

Lemma group_name_one_line : forall g i, named g -> one_line (group_getInterfaceName g i).
Proof.
  intros g i N. unfold group_getInterfaceName. destruct (_ <=? _); [literal|].
  destruct (nth_error g (Z.to_nat i)) as [s|] eqn:E; [|literal]. unfold named in N. rewrite Forall_forall in N. apply N.
  eapply nth_error_In; eauto.
Qed.

Lemma replace_names : forall i s s' (g : group), nth_error g i = Some s -> getInterfaceName s' = getInterfaceName s ->
  map getInterfaceName (replace_nth i s' g) = map getInterfaceName g.
Proof.
  induction i as [|i IH]; intros s s' [|x g] N E; cbn [replace_nth map nth_error] in *; try discriminate.
  - congruence.
  - f_equal. eauto.
Qed.

Lemma write_name : forall k s frames n w, write k s frames n = Ret w -> getInterfaceName (wr_if w) = getInterfaceName s.
Proof.
  intros k s frames n w H. unfold write in H.
  repeat match type of H with
  | (if ?b then _ else _) = _ => destruct b
  | bind _ _ = Ret _ => apply bind_ret_inv in H; destruct H as (? & _ & H)
  | (let '(_, _) := ?p in _) = _ => destruct p
  | Ret ?x = _ => assert (w = x) as -> by congruence; reflexivity
  | _ => progress cbn zeta in H
  end.
Qed.

Lemma group_write_names : forall k g i frames n c g' r c' sent, group_write k g i frames n c = Ret (g', r, c', sent) ->
  map getInterfaceName g' = map getInterfaceName g.
Proof.
  intros k g i frames n c g' r c' sent H. unfold group_write in H. destruct (_ <=? _); [congruence|].
  destruct (nth_error g (Z.to_nat i)) as [s|] eqn:E; [|discriminate]. apply bind_ret_inv in H. destruct H as (w & W & H).
  assert (g' = replace_nth (Z.to_nat i) (wr_if w) g) as -> by congruence. apply replace_names with s; auto. eapply write_name; eauto.
Qed.

Lemma group_read_names : forall res errno msgs g i out c g' r c' out', group_read res errno msgs g i out c = Ret (g', r, c', out') ->
  map getInterfaceName g' = map getInterfaceName g.
Proof.
  intros res errno msgs g i out c g' r c' out' H. unfold group_read in H. destruct (_ <=? _); [congruence|].
  destruct (nth_error g (Z.to_nat i)) as [s|] eqn:E; [|discriminate]. apply bind_ret_inv in H. destruct H as (w & W & H).
  assert (g' = replace_nth (Z.to_nat i) (rd_if w) g) as -> by congruence. apply replace_names with s; auto. eapply read_name; eauto.
Qed.

Lemma read_round_names : forall n i recv g out g' batch, read_round n i recv g out = Ret (g', batch) ->
  map getInterfaceName g' = map getInterfaceName g.
Proof.
  induction n as [|n IH]; intros i recv g out g' batch H; cbn [read_round] in H; [congruence|].
  destruct (recv i) as [[res errno] msgs]. apply bind_ret_inv in H. destruct H as ([[[g1 r] c] f1] & G & H).
  apply bind_ret_inv in H. destruct H as ([g2 rest] & R & H).
  assert (g' = g2) as -> by congruence. rewrite (IH _ _ _ _ _ _ R). eapply group_read_names; eauto.
Qed.

(** ** Starting the test *)
Lemma start_writes_erase : forall n i send g found,
  start_writes n i send g found =
  let* t := start_writes_c n i send g found in let '(g', f', ok, sents, _) := t in Ret (g', f', ok, sents).
Proof.
  induction n as [|n IH]; intros i send g found; cbn [start_writes start_writes_c bind]; [reflexivity|].
  destruct (group_write _ _ _ _ _ _) as [[[[g1 r] c] sent]|]; cbn [bind]; [|reflexivity].
  destruct (negb (result_not r)); [|reflexivity]. rewrite IH.
  destruct (start_writes_c _ _ _ _ _) as [[[[[g2 f2] ok] sents] out]|]; reflexivity.
Qed.

Lemma start_writes_text : forall n i send g found g' found' ok sents out, named g ->
  start_writes_c n i send g found = Ret (g', found', ok, sents, out) ->
  map getInterfaceName g' = map getInterfaceName g /\
  exists ls, is_text out ls /\ (forall name, Forall (dull name) ls) /\ (ok = false -> exists name, ends_with ls [not_enqueued name]).
Proof.
  induction n as [|n IH]; intros i send g found g' found' ok sents out N H; cbn [start_writes_c] in H.
  - assert (g' = g /\ ok = true /\ out = "") as (-> & -> & ->) by (injection H; intros; subst; auto). split; [reflexivity|].
    exists []. split; [apply is_text_nil|]. split; [constructor|discriminate].
  - apply bind_ret_inv in H. destruct H as ([[[g1 r] c] sent] & W & H). pose proof (group_write_names _ _ _ _ _ _ _ _ _ _ W) as M.
    assert (N1 : named g1) by (eapply named_names; eauto).
    pose proof (group_name_one_line g1 (Z.of_nat i) N1) as O. set (nm := group_getInterfaceName g1 (Z.of_nat i)) in *. clearbody nm.
    destruct (negb (result_not r)).
    + apply bind_ret_inv in H. destruct H as ([[[[g2 f2] ok2] s2] out2] & T & H).
      destruct (IH _ _ _ _ _ _ _ _ _ N1 T) as (M2 & ls & TX & D & E).
      assert (g' = g2 /\ ok = ok2) as (-> & ->) by (injection H; intros; subst; auto).
      assert (out = ("Successfully enqueued " ++ number c ++ " frame(s) on interface " ++ nm) ++ endl ++ out2) as ->
        by (rewrite !append_assoc; injection H; intros; subst; reflexivity).
      split; [congruence|]. exists (("Successfully enqueued " ++ number c ++ " frame(s) on interface " ++ nm) :: ls).
      split; [apply is_text_cons; [one_line_tac|exact TX]|]. split.
      * intros name. constructor; [|apply D]. split; cbn; discriminate.
      * intros K. destruct (E K) as (name & b & ->). exists name. eexists (_ :: b). reflexivity.
    + assert (g' = g1 /\ ok = false) as (-> & ->) by (injection H; intros; subst; auto).
      assert (out = not_enqueued nm ++ endl) as -> by (unfold not_enqueued; rewrite append_assoc; injection H; intros; subst; reflexivity).
      split; [exact M|]. exists [not_enqueued nm]. split; [apply is_text_line; unfold not_enqueued; one_line_tac|]. split.
      * intros name. constructor; [|constructor]. split; cbn; discriminate.
      * intros _. exists nm, []. reflexivity.
Qed.

Lemma start_loop_names : forall fuel i t m configs num kernel acc w g w', Forall one_line (m_required m) -> named acc ->
  start_loop fuel i t m configs num kernel acc w = Some (Ret (g, w')) -> named g.
Proof.
  induction fuel as [|fuel IH]; intros i t m configs num kernel acc w g w' N A H; cbn [start_loop] in H; [discriminate|].
  destruct (i <? _); [|congruence]. destruct (nth_error (m_required m) (Z.to_nat i)) as [name|] eqn:E; [|discriminate].
  destruct (createInterface _ _ _ _ _ _ _) as [[[r o] w1]|] eqn:C; [|discriminate].
  assert (O : one_line name) by (rewrite Forall_forall in N; apply N; eapply nth_error_In; eauto).
  apply IH in H; auto. destruct o as [s|]; auto. destruct (negb (result_not r)); auto. apply Forall_app. split; [exact A|].
  constructor; [|constructor]. unfold createInterface in C. destruct (openSocket _ _ _ _ _) as [fd tr]. destruct (fd <=? 0); [congruence|].
  apply bind_ret_inv in C. destruct C as ([r1 log] & _ & C). destruct (result_not r1); [congruence|].
  assert (s = iface_make i name fd) as -> by congruence. exact O.
Qed.

Lemma start_test_erase : forall fuel lb m kernel send w,
  start_test fuel lb m kernel send w =
  match start_test_c fuel lb m kernel send w with
  | None => None
  | Some UB => Some UB
  | Some (Ret (og, lb', sents, w', _)) => Some (Ret (og, lb', sents, w'))
  end.
Proof.
  intros fuel lb m kernel send w. unfold start_test, start_test_c. destruct (0 <? _); [reflexivity|].
  destruct (negb _); [reflexivity|]. destruct (startInterfaceGroup _ _ _ _ _ _ _) as [[[[r out] w1]|]|]; try reflexivity.
  destruct (isFailure r); [reflexivity|]. destruct out as [g|]; [|reflexivity]. rewrite start_writes_erase.
  destruct (start_writes_c _ _ _ _ _) as [[[[[g' f'] ok] sents] text]|]; [|reflexivity]. cbn [bind].
  destruct (_ && _); reflexivity.
Qed.

Lemma start_test_text : forall fuel m kernel send w og lb sents w' text, Forall one_line (m_required m) -> m_own m = true ->
  start_test_c fuel loopback_make m kernel send w = Some (Ret (og, lb, sents, w', text)) ->
  exists ls, is_text text ls /\ (forall name, Forall (dull name) ls) /\
  match og with
  | None => ls = [] \/ exists name, ends_with ls [not_enqueued name]
  | Some g => named g /\ lb_result lb = Failure
  end.
Proof.
  intros fuel m kernel send w og lb sents w' text N OWN H. unfold start_test_c in H. cbn [loopback_make lb_found List.length] in H.
  change (0 <? Z.of_nat 0) with false in H. cbn iota in H. unfold doesReceiveOwnMessages in H. rewrite OWN in H. cbn [negb] in H.
  destruct (startInterfaceGroup _ _ _ _ _ _ _) as [[[[r out] w1]|]|] eqn:ST; try discriminate.
  destruct (isFailure r) eqn:IF.
  { assert (og = out /\ text = "") as (-> & ->) by (injection H; intros; subst; auto). exists []. split; [apply is_text_nil|].
    split; [constructor|]. destruct out as [g|]; [|auto]. exfalso. unfold startInterfaceGroup in ST.
    destruct (start_loop _ _ _ _ _ _ _ _ _) as [[[[|s l] w2]|]|]; try discriminate.
    assert (E : r = if Z.of_nat (List.length (m_required m)) <=? getInterfaceCount (s :: l) then Success else SuccessPartial)
      by (injection ST; intros; subst; reflexivity).
    rewrite E in IF. destruct (_ <=? _) in IF; discriminate. }
  destruct out as [g|]; [|discriminate].
  assert (NG : named g /\ 0 < getInterfaceCount g).
  { unfold startInterfaceGroup in ST. destruct (start_loop _ _ _ _ _ _ _ _ _) as [[[[|s l] w2]|]|] eqn:SL; try discriminate.
    assert (g = s :: l) as -> by (injection ST; intros; subst; reflexivity).
    split; [eapply start_loop_names; [exact N| |exact SL]; constructor|]. unfold getInterfaceCount. cbn [List.length]. lia. }
  destruct NG as [NG CG].
  destruct (start_writes_c _ _ _ _ _) as [[[[[g' f'] ok] s'] t']|] eqn:SW; [|discriminate].
  destruct (start_writes_text _ _ _ _ _ _ _ _ _ _ NG SW) as (M & ls & TX & D & E).
  destruct (Z.ltb_spec 0 (getInterfaceCount g)) as [_|]; [|lia]. cbn [andb] in H.
  exists (("Opened " ++ number (getInterfaceCount g) ++ " interface(s).") :: ls).
  assert (TT : text = ("Opened " ++ number (getInterfaceCount g) ++ " interface(s).") ++ endl ++ t').
  { rewrite !append_assoc. destruct ok; injection H; intros; subst; rewrite ?append_assoc; reflexivity. }
  split; [rewrite TT; apply is_text_cons; [one_line_tac|exact TX]|].
  split; [intros name; constructor; [split; cbn; discriminate|apply D]|].
  destruct ok.
  - assert (og = Some g' /\ lb_result lb = Failure) as (-> & L) by (injection H; intros; subst; auto).
    split; [eapply named_names; eauto|exact L].
  - assert (og = None) as -> by (injection H; intros; subst; auto). right. destruct (E eq_refl) as (name & b & ->). exists name.
    eexists (_ :: b). reflexivity.
Qed.

(** ** Running the test *)
Lemma evaluate_erase : forall g i fs found,
  evaluate i fs found = let* (f, _) := evaluate_c g i fs found in Ret f.
Proof.
  intros g i fs found. unfold evaluate, evaluate_c. destruct (nth_error found i) as [v|]; [|reflexivity].
  destruct (v =? 3); [reflexivity|]. destruct (eval_frames v fs); reflexivity.
Qed.

Lemma evaluate_round_erase : forall g batch i found,
  evaluate_round i batch found = let* (f, _) := evaluate_round_c g i batch found in Ret f.
Proof.
  intros g. induction batch as [|[r fs] batch IH]; intros i found; cbn [evaluate_round evaluate_round_c bind]; [reflexivity|].
  rewrite (evaluate_erase g). destruct (_ && _).
  - destruct (evaluate_c g i fs found) as [[f s]|]; cbn [bind]; [|reflexivity]. rewrite IH.
    destruct (evaluate_round_c _ _ _ _) as [[f2 s2]|]; reflexivity.
  - cbn [bind]. rewrite IH. destruct (evaluate_round_c _ _ _ _) as [[f2 s2]|]; reflexivity.
Qed.

Lemma run_erase : forall P timeout continuous started ticks last g lb,
  match run_console P timeout continuous started last ticks g lb with
  | Ret (r, _) => exists reps, run_timed P timeout continuous started last ticks g lb = Ret (r, reps)
  | UB => run_timed P timeout continuous started last ticks g lb = UB
  end.
Proof.
  intros P timeout continuous started. induction ticks as [|k rest IH]; intros last g lb; cbn [run_console run_timed]; [eauto|].
  destruct (timed_out _ _ _ _) as [[|]|]; cbn [bind]; [eauto| |reflexivity].
  destruct (select _ _ _ _ _) as [sel|]; cbn [bind]; [|reflexivity].
  destruct (sarith _ _ _) as [period|]; cbn [bind]; [|reflexivity].
  destruct (read_round _ _ _ _ _) as [[g' batch]|]; cbn [bind]; [|reflexivity].
  rewrite (evaluate_round_erase g').
  destruct (if result_not (lb_result lb) then evaluate_round_c g' 0 batch (lb_found lb) else Ret (lb_found lb, "")) as [[f s]|] eqn:EV;
    destruct (result_not (lb_result lb)); try discriminate; try (rewrite EV); cbn [bind]; try reflexivity.
  all: try (assert (f = lb_found lb) as -> by congruence).
  all: destruct (isComplete g' _); [destruct (negb continuous); cbn [bind]; [eauto|]|].
  all: match goal with |- context[run_console ?P ?t ?c ?s ?l ?tk ?gg ?ll] => specialize (IH l gg ll); revert IH;
         destruct (run_console P t c s l tk gg ll) as [[r out]|]; intros IH; cbn [bind] end.
  all: first [rewrite IH; reflexivity|destruct IH as [reps ->]; cbn [bind]; eauto].
Qed.

(** What one iteration prints about statistics. *)
Lemma printed_text : forall (due : bool) g, named g ->
  exists ls, is_text (if due then String.concat "" (map (fun x => print_stats (fst x) (snd x)) (print_all g)) else "") ls /\
    forall name, ~ In ":"%char (list_ascii_of_string name) -> Forall (dull name) ls.
Proof.
  intros due g N. destruct due; [|exists []; split; [apply is_text_nil|constructor]].
  unfold print_all. assert (NF : named (firstn (Z.to_nat (getInterfaceCount g)) g)).
  { unfold named in *. rewrite <- (firstn_skipn (Z.to_nat (getInterfaceCount g)) g) in N. apply Forall_app in N. tauto. }
  revert NF. generalize (firstn (Z.to_nat (getInterfaceCount g)) g). clear g N.
  assert (CC : forall x xs, String.concat "" (x :: xs) = x ++ String.concat "" xs).
  { intros x [|y ys]; cbn [String.concat]; [now rewrite append_nil_r|reflexivity]. }
  intros g. induction g as [|s g IH]; intros N; [exists []; split; [apply is_text_nil|constructor]|].
  inversion N as [|? ? N1 N2]; subst. destruct (IH N2) as (ls & TX & D). cbn [map fst snd]. rewrite CC.
  destruct (print_stats_line (getInterfaceName s) (getStatistics s)) as (l & -> & O & C).
  exists ([l] ++ ls)%list. split; [apply is_text_app; [apply is_text_line; auto|exact TX]|].
  intros name NC. constructor; [|auto]. split; apply stats_not; auto using passed_colon, got_all_colon.
Qed.

Lemma evaluate_text : forall g i fs found f out, named g -> evaluate_c g i fs found = Ret (f, out) ->
  exists ls, is_text out ls /\ ~ In passed ls.
Proof.
  intros g i fs found f out N H. unfold evaluate_c in H. destruct (nth_error found i) as [v|]; [|discriminate].
  set (ev := "Evaluating " ++ number (Z.of_nat (List.length fs)) ++ " frame(s)...").
  assert (OE : one_line ev) by (unfold ev; one_line_tac).
  assert (PE : ev <> passed) by (unfold ev; cbn; discriminate).
  assert (EE : "Evaluating " ++ number (Z.of_nat (List.length fs)) ++ " frame(s)..." ++ endl = ev ++ endl)
    by (unfold ev; now rewrite !append_assoc).
  rewrite EE in H. clear EE. clearbody ev.
  destruct (v =? 3).
  { assert (out = ev ++ endl) as -> by congruence. exists [ev]. split; [now apply is_text_line|]. intros [|[]]; auto. }
  apply bind_ret_inv in H. destruct H as (v' & _ & H).
  pose proof (group_name_one_line g (Z.of_nat i) N) as O. set (nm := group_getInterfaceName g (Z.of_nat i)) in *. clearbody nm.
  destruct (v' =? 3).
  - assert (out = (ev ++ endl) ++ (got_all nm ++ endl)) as -> by (unfold got_all; rewrite (append_assoc "...Got all frames for interface "); congruence).
    exists ([ev] ++ [got_all nm])%list. split; [apply is_text_app; apply is_text_line; auto; unfold got_all; one_line_tac|].
    intros [X|[X|[]]]; [auto|]. cbn in X. discriminate.
  - assert (out = ev ++ endl) as -> by (rewrite append_nil_r in H; congruence). exists [ev]. split; [now apply is_text_line|]. intros [|[]]; auto.
Qed.

Lemma evaluate_round_text : forall g, named g -> forall batch i found f out, evaluate_round_c g i batch found = Ret (f, out) ->
  exists ls, is_text out ls /\ ~ In passed ls.
Proof.
  intros g N. induction batch as [|[r fs] batch IH]; intros i found f out H; cbn [evaluate_round_c] in H.
  - assert (out = "") as -> by congruence. exists []. split; [apply is_text_nil|auto].
  - apply bind_ret_inv in H. destruct H as ([f1 s1] & E1 & H). apply bind_ret_inv in H. destruct H as ([f2 s2] & E2 & H).
    assert (out = s1 ++ s2) as -> by congruence. destruct (IH _ _ _ _ E2) as (l2 & T2 & P2).
    assert (X : exists l1, is_text s1 l1 /\ ~ In passed l1).
    { destruct (_ && _); [eapply evaluate_text; eauto|]. assert (s1 = "") as -> by congruence. exists []. split; [apply is_text_nil|auto]. }
    destruct X as (l1 & T1 & P1). exists (l1 ++ l2)%list. split; [now apply is_text_app|]. rewrite in_app_iff. tauto.
Qed.

Lemma run_text : forall P timeout continuous started ticks last g lb r out, named g -> lb_result lb = Success \/ lb_result lb = Failure ->
  run_console P timeout continuous started last ticks g lb = Ret (r, out) ->
  exists ls, is_text out ls /\ ~ In passed ls /\
    (r = None \/ r = Some Success \/ r = Some Failure /\ ends_with ls ["Test timed out after " ++ number timeout]).
Proof.
  intros P timeout continuous started. induction ticks as [|k rest IH]; intros last g lb r out N LB H; cbn [run_console] in H.
  { assert (r = None /\ out = "") as [-> ->] by (split; congruence). exists []. split; [apply is_text_nil|auto]. }
  apply bind_ret_inv in H. destruct H as ([|] & _ & H).
  { assert (r = Some (lb_result lb)) as -> by congruence.
    assert (out = ("Test timed out after " ++ number timeout) ++ endl) as -> by (rewrite append_assoc; congruence).
    eexists. split; [apply is_text_line; one_line_tac|]. split; [intros [X|[]]; cbn in X; discriminate|].
    destruct LB as [->| ->]; [auto|]. right. right. split; [reflexivity|]. exists []. reflexivity. }
  apply bind_ret_inv in H. destruct H as (sel & _ & H). apply bind_ret_inv in H. destruct H as (period & _ & H).
  apply bind_ret_inv in H. destruct H as ([g' batch] & RR & H).
  apply bind_ret_inv in H. destruct H as ([f s] & EV & H). apply bind_ret_inv in H. destruct H as ([r' more] & MR & H).
  assert (r = r') as -> by congruence.
  assert (N' : named g') by (eapply named_names; [eapply read_round_names; eauto|exact N]).
  destruct (printed_text (ns_per_second <=? period) g N) as (lp & TP & DP).
  set (printed := if ns_per_second <=? period then String.concat _ _ else _) in *. clearbody printed.
  assert (out = printed ++ s ++ more) as -> by congruence. clear H.
  assert (PP : ~ In passed lp).
  { specialize (DP "" ltac:(intros [])). rewrite Forall_forall in DP. intros I. apply DP in I. destruct I as [I _]. congruence. }
  assert (X : exists l1, is_text s l1 /\ ~ In passed l1).
  { destruct (result_not _); [eapply evaluate_round_text; eauto|]. assert (s = "") as -> by congruence. exists []. split; [apply is_text_nil|auto]. }
  destruct X as (l1 & T1 & P1).
  assert (Y : exists l2, is_text more l2 /\ ~ In passed l2 /\
    (r' = None \/ r' = Some Success \/ r' = Some Failure /\ ends_with l2 ["Test timed out after " ++ number timeout])).
  { destruct (isComplete g' f); [destruct (negb continuous)|].
    - assert (r' = Some Success /\ more = "") as [-> ->] by (split; congruence). exists []. split; [apply is_text_nil|auto].
    - eapply IH; [exact N'| |exact MR]. auto.
    - eapply IH; [exact N'| |exact MR]. auto. }
  destruct Y as (l2 & T2 & P2 & R). exists (lp ++ l1 ++ l2)%list. split; [repeat apply is_text_app; auto|].
  split; [rewrite !in_app_iff; tauto|]. destruct R as [R|[R|[R (b & ->)]]]; auto. right. right. split; [exact R|].
  exists (lp ++ l1 ++ b)%list. now rewrite !app_assoc.
Qed.

(** ** Arguments *)
Lemma split_eq_one_line : forall s n v, one_line s -> split_eq s = (n, Some v) -> one_line v.
Proof.
  unfold one_line. induction s as [|c s IH]; intros n v O H; cbn [split_eq] in H; [discriminate|]. cbn [list_ascii_of_string In] in O.
  destruct (Ascii.eqb c "="); [assert (s = v) as <- by congruence; tauto|].
  destruct (split_eq s) as [n' v'] eqn:E. assert (v' = Some v) as -> by congruence. eapply IH; [|reflexivity]. tauto.
Qed.

Lemma getopt_one_line : forall args table i v optarg rest, Forall one_line args ->
  getopt_long args table = (Option_ i v optarg, rest) ->
  Forall one_line rest /\ (forall a, optarg = Some a -> one_line a).
Proof.
  induction args as [|w args IH]; intros table i v optarg rest F H; cbn [getopt_long] in H; [discriminate|].
  inversion F as [|? ? F1 F2]; subst. destruct w as [|c0 [|c1 body]]; [eauto|eauto|].
  assert (OB : one_line body) by (unfold one_line in *; cbn [list_ascii_of_string In] in F1; tauto).
  destruct (negb _); [eauto|]. destruct (Ascii.eqb c1 "-").
  - destruct (String.eqb body ""); [discriminate|]. destruct (split_eq body) as [nm val] eqn:SE.
    destruct (find_long nm table) as [[j o]|]; [|discriminate]. destruct val as [u|].
    + destruct (_ =? 0); [discriminate|]. assert (optarg = Some u /\ rest = args) as [-> ->] by (split; congruence).
      split; [exact F2|]. intros a A. assert (u = a) as <- by congruence. eapply split_eq_one_line; eauto.
    + destruct (_ =? required_argument).
      * destruct args as [|u args']; [discriminate|]. assert (optarg = Some u /\ rest = args') as [-> ->] by (split; congruence).
        inversion F2; subst. split; [auto|]. intros a A. congruence.
      * assert (optarg = None /\ rest = args) as [-> ->] by (split; congruence). split; [exact F2|discriminate].
  - destruct (Ascii.eqb c1 "d"); [|discriminate]. destruct (String.eqb body "").
    + destruct args as [|u args']; [discriminate|]. assert (optarg = Some u /\ rest = args') as [-> ->] by (split; congruence).
      inversion F2; subst. split; [auto|]. intros a A. congruence.
    + assert (optarg = Some body /\ rest = args) as [-> ->] by (split; congruence). split; [exact F2|]. intros a A. congruence.
Qed.

Lemma parse_one_line : forall fuel args table ns r ns', Forall one_line args -> Forall one_line (ns_devices ns) ->
  parse_loop fuel args table ns = Some (Ret (r, ns')) -> Forall one_line (ns_devices ns').
Proof.
  induction fuel as [|fuel IH]; intros args table ns r ns' F D H; cbn [parse_loop] in H; [discriminate|].
  destruct (getopt_long args table) as [[|i v optarg|] rest] eqn:G.
  - assert (ns = ns') as <- by congruence. exact D.
  - destruct (getopt_one_line _ _ _ _ _ _ F G) as [FR FA].
    destruct (Ascii.eqb v "e" || Ascii.eqb v "c"); [eapply IH; [exact FR| |exact H]; exact D|].
    destruct (Ascii.eqb v "d"); [|assert (ns = ns') as <- by congruence; exact D].
    destruct optarg as [a|]; [|discriminate]. eapply IH; [exact FR| |exact H]. cbn [ns_devices]. apply Forall_app. split; [exact D|].
    constructor; [auto|constructor].
  - assert (ns = ns') as <- by congruence. exact D.
Qed.

(** ** The program *)
Lemma usage_text : exists ls, is_text usage ls /\ ~ In passed ls /\ ls <> [].
Proof.
  exists (lines usage). assert (F : forallb one_lineb (lines usage) = true) by (vm_compute; reflexivity).
  split; [split; [vm_compute; reflexivity|]|split].
  - apply Forall_forall. intros l I. apply one_lineb_true. rewrite forallb_forall in F. auto.
  - vm_compute. intros H. repeat (destruct H as [H|H]; [discriminate|]). exact H.
  - vm_compute. discriminate.
Qed.

Lemma main_text : forall P fuel args kernel send started last ticks w e, Forall one_line args ->
  main_c P fuel args kernel send started last ticks w = Some (Ret e) ->
  (e_code e = 0 /\ In passed (lines (e_console e)) /\ ends_with (lines (e_console e)) [passed; stopped]) \/
  (e_code e = -1 /\ ~ In passed (lines (e_console e)) /\
   (e_console e = usage \/ e_console e = "" \/ (exists name, ends_with (lines (e_console e)) [not_enqueued name]) \/
    ends_with (lines (e_console e)) [gave_up; stopped])).
Proof.
  intros P fuel args kernel send started last ticks w e A H. unfold main_c in H.
  destruct (parse_args fuel args) as [[[r ns]|]|] eqn:PA; try discriminate.
  destruct (negb _).
  { assert (e = Ending (-1) w usage) as -> by congruence. right. cbn [e_code e_console]. split; [reflexivity|].
    destruct usage_text as (ls & TX & NP & _). rewrite (is_text_lines _ _ TX). auto. }
  assert (ND : Forall one_line (ns_devices ns)) by (eapply parse_one_line; [exact A| |exact PA]; constructor).
  destruct (start_test_c _ _ _ _ _ _) as [[[[[[og lb] sents] w1] text]|]|] eqn:ST; try discriminate.
  destruct (start_test_text _ _ _ _ _ _ _ _ _ _ (ND : Forall one_line (m_required (Manager (ns_devices ns) true true))) eq_refl ST) as (ls & TX & D & OG).
  assert (NP : ~ In passed ls).
  { specialize (D ""). rewrite Forall_forall in D. intros I. apply D in I. destruct I as [I _]. congruence. }
  destruct og as [g|].
  2:{ assert (e = Ending (-1) w1 text) as -> by congruence. right. cbn [e_code e_console]. split; [reflexivity|].
      rewrite (is_text_lines _ _ TX). split; [exact NP|]. right. destruct OG as [-> | OG]; [left; apply TX|right; left; exact OG]. }
  destruct OG as [NG LR].
  destruct (run_console _ _ _ _ _ _ _ _) as [[[verdict|] more]|] eqn:RC; try discriminate.
  destruct (run_text _ _ _ _ _ _ _ _ _ _ NG (or_intror LR) RC) as (l2 & T2 & P2 & V).
  unfold stopInterfaceGroup in H. set (w2 := World _ _) in H. clearbody w2.
  assert (OP : one_line passed) by literal. assert (OS : one_line stopped) by literal.
  destruct V as [V|[V|[V TO]]]; [discriminate| |].
  - assert (verdict = Success) as -> by congruence. change (result_not Success) with false in H. cbn iota in H.
    assert (e_code e = 0 /\ e_console e = text ++ more ++ (passed ++ endl) ++ (stopped ++ endl)) as [-> ->].
    { unfold passed, stopped. rewrite (append_assoc "Test passed!"). injection H; intros; subst; cbn [e_code e_console]; auto. }
    left. assert (T : is_text (text ++ more ++ (passed ++ endl) ++ stopped ++ endl) (ls ++ l2 ++ [passed] ++ [stopped])%list)
      by (repeat apply is_text_app; auto using is_text_line).
    rewrite (is_text_lines _ _ T). split; [reflexivity|]. split; [rewrite !in_app_iff; cbn; auto|].
    exists (ls ++ l2)%list. now rewrite <- app_assoc.
  - assert (verdict = Failure) as -> by congruence. change (result_not Failure) with true in H. cbn iota in H.
    assert (e_code e = -1 /\ e_console e = text ++ more ++ (stopped ++ endl)) as [-> ->].
    { unfold stopped. injection H; intros; subst; cbn [e_code e_console]; auto. }
    right. assert (T : is_text (text ++ more ++ stopped ++ endl) (ls ++ l2 ++ [stopped])%list)
      by (repeat apply is_text_app; auto using is_text_line).
    rewrite (is_text_lines _ _ T). split; [reflexivity|]. split.
    + rewrite !in_app_iff. intros [X|[X|[X|[]]]]; auto. discriminate X.
    + right. right. right. destruct TO as (b & ->). exists (ls ++ b)%list. rewrite <- !app_assoc. reflexivity.
Qed.

Lemma main_erase : forall P fuel args kernel send started last ticks w, wf_platform P -> steady started last ticks ->
  main fuel args kernel send (rounds_of 10 started ticks) w =
  match main_c P fuel args kernel send started last ticks w with
  | Some (Ret e) => Some (Ret (e_code e, e_world e))
  | Some UB => Some UB
  | None => None
  end.
Proof.
  intros P fuel args kernel send started last ticks w W S. unfold main, main_c.
  destruct (parse_args fuel args) as [[[r ns]|]|]; try reflexivity. destruct (negb _); [reflexivity|].
  rewrite start_test_erase. destruct (start_test_c _ _ _ _ _ _) as [[[[[[[g|] lb] sents] w1] text]|]|]; try reflexivity.
  pose proof (run_timed_link P 10 (ns_continuous ns) started W ltac:(unfold ns_per_second; lia) ticks last g lb (steady_clock _ _ _ S)) as L.
  pose proof (run_erase P 10 (ns_continuous ns) started ticks last g lb) as E.
  destruct (run_console _ _ _ _ _ _ _ _) as [[r' out]|].
  - destruct E as [reps E]. destruct (run_test _ _ _ _) as [[r0|]|].
    + destruct L as [reps' L]. assert (r' = Some r0) as -> by congruence. reflexivity.
    + congruence.
    + destruct L as [reps' L]. assert (r' = None) as -> by congruence. reflexivity.
  - destruct (run_test _ _ _ _) as [[r0|]|]; [destruct L as [reps' L]; congruence|reflexivity|destruct L as [reps' L]; congruence].
Qed.

(** ** When nothing is printed *)
Lemma append_not_empty : forall (c : ascii) a b, String c a ++ b <> "".
Proof. intros c a b. cbn. discriminate. Qed.

Lemma main_silent : forall P l fuel kernel send started last ticks w e,
  ~ late_long_device l -> devices l <> [] -> (List.length (devices l) <= 255)%nat -> (List.length l < fuel)%nat ->
  main_c P fuel (command_line l) kernel send started last ticks w = Some (Ret e) ->
  exists ans tr, answered kernel (devices l) tr ans /\ (exists more, w_trace (e_world e) = (tr ++ more)%list) /\
    (e_console e = "" <->
     Forall2 (fun name a => ~ comes_up (Manager (devices l) true true) (Some [Filter 0 0]) 1 name a) (devices l) ans).
Proof.
  intros P l fuel kernel send started last ticks w e NL ND LD F H. unfold main_c in H.
  rewrite (proj2 (parse_documented l fuel F) NL) in H.
  assert (LL : (List.length (devices l) <= List.length l)%nat).
  { clear. induction l as [|x l IH]; [cbn; lia|]. unfold devices in *. cbn [flat_map]. rewrite app_length. destruct x; cbn [devices_of List.length]; lia. }
  destruct (devices l) as [|d0 ds] eqn:D; [congruence|]. rewrite <- D in *. clear ND.
  change (negb (Success =? Success)) with false in H. cbn [ns_devices ns_continuous] in H.
  unfold start_test_c in H. cbn [loopback_make lb_found List.length] in H.
  change (0 <? Z.of_nat 0) with false in H. cbn iota in H. unfold doesReceiveOwnMessages in H. cbn [m_own negb] in H.
  assert (OK : configs_ok (Some test_filters) 1) by (cbn; lia). change (List.length test_filters) with 1%nat in H.
  destruct (start_spec (Manager (devices l) true true) (Some test_filters) 1 kernel None w OK LD) as (ans & r & out & w' & ST & LA & AK & RN & RS & RC & ON & OG).
  cbn [m_required] in *. rewrite ST in H by lia. exists ans, (w_trace w'). split; [split; auto|].
  destruct (Z.eq_dec r NotFound) as [NFR|NFR].
  - rewrite NFR in H. change (isFailure NotFound) with true in H. cbn iota in H. rewrite (ON NFR) in H.
    assert (e = Ending (-1) w' "") as -> by congruence. cbn [e_world e_console]. split; [exists []; now rewrite app_nil_r|].
    split; [intros _; now apply RN|reflexivity].
  - assert (SF : isFailure r = false) by (destruct RC as [R|[R|R]]; [congruence|rewrite R; reflexivity|rewrite R; reflexivity]).
    rewrite SF in H. destruct (OG NFR) as (g & EG & _). rewrite EG in H.
    destruct (start_writes_c _ _ _ _ _) as [[[[[g' f'] ok] s'] t']|]; [|discriminate].
    assert (X : (exists more, w_trace (e_world e) = (w_trace w' ++ more)%list) /\ e_console e <> "").
    { destruct (_ && _).
      - destruct (run_console _ _ _ _ _ _ _ _) as [[[v|] more]|]; try discriminate.
        cbn [stopInterfaceGroup destroy_ptr] in H. match type of H with Some (Ret ?x) = _ => assert (e = x) as -> by congruence end.
        cbn [e_world e_console w_trace]. split; [unfold destroy; eauto|]. intros Q. exact (append_not_empty _ _ _ Q).
      - match type of H with Some (Ret ?x) = _ => assert (e = x) as -> by congruence end.
        cbn [e_world e_console w_trace]. split; [unfold destroy; eauto|]. intros Q. exact (append_not_empty _ _ _ Q). }
    destruct X as [X1 X2]. split; [exact X1|]. split; [contradiction|]. intros Q. apply RN in Q. contradiction.
Qed.

(** ** Counting the interfaces that are done *)
Fixpoint done (name : string) (names : list string) (fl : list (bool * bool)) : nat :=
  match names, fl with
  | n :: names', p :: fl' => ((if both p && String.eqb n name then 1 else 0) + done name names' fl')%nat
  | _, _ => 0%nat
  end.

Lemma evaluate_said : forall g pre p post fs name, Forall frame_ok fs -> named g -> (List.length pre < List.length g)%nat ->
  exists out ls nm, nth_error (map getInterfaceName g) (List.length pre) = Some nm /\
    evaluate_c g (List.length pre) fs (pre ++ m p :: post)%list =
      Ret ((pre ++ m (fst p || existsb (same 0) fs, snd p || existsb (same 1) fs) :: post)%list, out) /\
    is_text out ls /\
    (said (got_all name) ls + (if both p && String.eqb nm name then 1 else 0) =
     (if both (fst p || existsb (same 0) fs, snd p || existsb (same 1) fs) && String.eqb nm name then 1 else 0))%nat.
Proof.
  intros g pre p post fs name F N L. unfold evaluate_c. rewrite nth_error_app2, Nat.sub_diag by lia. cbn [nth_error].
  set (ev := "Evaluating " ++ number (Z.of_nat (List.length fs)) ++ " frame(s)...").
  assert (OE : one_line ev) by (unfold ev; one_line_tac).
  assert (PE : ev <> got_all name) by (unfold ev; cbn; discriminate).
  assert (EE : "Evaluating " ++ number (Z.of_nat (List.length fs)) ++ " frame(s)..." ++ endl = ev ++ endl)
    by (unfold ev; now rewrite !append_assoc).
  rewrite EE. clear EE. clearbody ev.
  destruct (nth_error g (List.length pre)) as [s|] eqn:NE; [|apply nth_error_None in NE; lia].
  assert (GN : group_getInterfaceName g (Z.of_nat (List.length pre)) = getInterfaceName s).
  { unfold group_getInterfaceName. destruct (Z.leb_spec (Z.of_nat (List.length g)) (Z.of_nat (List.length pre))); [lia|].
    now rewrite Nat2Z.id, NE. }
  assert (O : one_line (getInterfaceName s)).
  { unfold named in N. rewrite Forall_forall in N. apply N. eapply nth_error_In; eauto. }
  rewrite GN. set (nm := getInterfaceName s) in *.
  assert (ZE : said (got_all name) [ev] = 0%nat) by (unfold said; cbn [count_occ]; destruct (string_dec ev (got_all name)); [contradiction|reflexivity]).
  destruct (Z.eqb_spec (m p) 3) as [E|E].
  { destruct p as [[|] [|]]; try discriminate. cbn [fst snd orb]. exists (ev ++ endl), [ev], nm.
    split; [rewrite nth_error_map, NE; reflexivity|]. split; [reflexivity|]. split; [now apply is_text_line|]. rewrite ZE. reflexivity. }
  rewrite eval_frames_eq by auto. cbn [bind]. rewrite replace_nth_app.
  set (p' := (fst p || existsb (same 0) fs, snd p || existsb (same 1) fs)).
  assert (BP : both p = false) by (destruct p as [[|] [|]]; try reflexivity; now contradiction E).
  assert (M3 : (m p' =? 3) = both p') by (destruct p' as [[|] [|]]; reflexivity). rewrite M3, BP. cbn [andb].
  destruct (both p') eqn:B; cbn [andb].
  - exists ((ev ++ endl) ++ (got_all nm ++ endl)), ([ev] ++ [got_all nm])%list, nm.
    split; [rewrite nth_error_map, NE; reflexivity|].
    split; [unfold got_all; rewrite (append_assoc "...Got all frames for interface "); reflexivity|].
    split; [apply is_text_app; apply is_text_line; auto; unfold got_all; one_line_tac|].
    rewrite said_app, ZE. unfold said. cbn [count_occ]. destruct (String.eqb_spec nm name) as [->|NQ].
    + destruct (string_dec (got_all name) (got_all name)); [reflexivity|congruence].
    + destruct (string_dec (got_all nm) (got_all name)) as [Q|]; [|reflexivity]. exfalso. apply NQ. unfold got_all in Q.
      cbn in Q. congruence.
  - exists (ev ++ endl), [ev], nm. split; [rewrite nth_error_map, NE; reflexivity|].
    split; [now rewrite append_nil_r|]. split; [now apply is_text_line|]. now rewrite ZE.
Qed.

Lemma evaluate_round_said : forall g name, named g -> forall batch pre fl, List.length fl = List.length batch ->
  (List.length pre + List.length fl = List.length g)%nat -> Forall (fun x => Forall frame_ok (snd x)) batch ->
  exists out ls, evaluate_round_c g (List.length pre) batch (pre ++ map m fl)%list = Ret ((pre ++ map m (upds fl batch))%list, out) /\
    is_text out ls /\
    (said (got_all name) ls + done name (skipn (List.length pre) (map getInterfaceName g)) fl =
     done name (skipn (List.length pre) (map getInterfaceName g)) (upds fl batch))%nat.
Proof.
  intros g name N. induction batch as [|[r fs] batch IH]; intros pre fl L LG F.
  - destruct fl; [|discriminate]. exists "", []. cbn [evaluate_round_c upds map]. split; [reflexivity|]. split; [apply is_text_nil|]. reflexivity.
  - destruct fl as [|p fl]; [discriminate|]. inversion F as [|? ? F1 F2]; subst. cbn [evaluate_round_c map upds snd List.length] in *.
    destruct (evaluate_said g pre p (map m fl) fs name F1 N ltac:(lia)) as (o1 & l1 & nm & NM & E1 & T1 & C1).
    assert (X : exists o l, (if negb (result_not r) && (0 <? Z.of_nat (List.length fs)) then evaluate_c g (List.length pre) fs (pre ++ m p :: map m fl)%list
                  else Ret ((pre ++ m p :: map m fl)%list, "")) = Ret ((pre ++ m (upd p (r, fs)) :: map m fl)%list, o) /\ is_text o l /\
       (said (got_all name) l + (if both p && String.eqb nm name then 1 else 0) = (if both (upd p (r, fs)) && String.eqb nm name then 1 else 0))%nat).
    { unfold upd, isSuccess. cbn [fst snd]. destruct (negb (result_not r)).
      2:{ exists "", []. split; [reflexivity|]. split; [apply is_text_nil|reflexivity]. }
      destruct fs as [|f fs].
      - cbn [existsb List.length andb]. rewrite !orb_false_r. destruct p as [a b]. exists "", []. split; [reflexivity|]. split; [apply is_text_nil|reflexivity].
      - destruct (Z.ltb_spec 0 (Z.of_nat (List.length (f :: fs)))) as [_|Q]; [|cbn [List.length] in Q; lia]. cbn [andb]. eauto. }
    destruct X as (o & l & -> & T & C). cbn [bind].
    assert (A : forall x rest, (pre ++ x :: rest = (pre ++ [x]) ++ rest)%list) by (intros; now rewrite <- app_assoc).
    rewrite (A (m (upd p (r, fs))) (map m fl)), (A (m (upd p (r, fs))) (map m (upds fl batch))).
    assert (LP : S (List.length pre) = List.length (pre ++ [m (upd p (r, fs))])%list) by (rewrite app_length; cbn [List.length]; lia).
    rewrite LP. destruct (IH (pre ++ [m (upd p (r, fs))])%list fl) as (o2 & l2 & E2 & T2 & C2); [lia|rewrite <- LP; lia|auto|].
    rewrite E2. cbn [bind]. exists (o ++ o2), (l ++ l2)%list. split; [reflexivity|]. split; [now apply is_text_app|].
    rewrite <- LP in C2.
    assert (SK : skipn (List.length pre) (map getInterfaceName g) = nm :: skipn (S (List.length pre)) (map getInterfaceName g)).
    { clear - NM. revert NM. generalize (map getInterfaceName g). induction (List.length pre) as [|k IHk]; intros [|x xs] H; try discriminate.
      - cbn in H. injection H as ->. reflexivity.
      - cbn [skipn]. cbn [nth_error] in H. rewrite (IHk xs H). reflexivity. }
    rewrite SK. cbn [done]. rewrite said_app. lia.
Qed.

Lemma done_all : forall name names fl, List.length names = List.length fl -> forallb both fl = true ->
  done name names fl = count_occ string_dec names name.
Proof.
  induction names as [|n names IH]; intros [|p fl] L B; try discriminate; [reflexivity|]. cbn [forallb] in B. apply andb_true_iff in B.
  destruct B as [B1 B2]. cbn [done count_occ]. rewrite B1, IH by auto. cbn [andb].
  destruct (String.eqb_spec n name), (string_dec n name); try contradiction; reflexivity.
Qed.

(** What has arrived is what the flags say. *)
Definition flags_after (ticks : list tick) (k : nat) (p : bool * bool) : bool * bool :=
  (fst p || existsb (fun t => seen 1 (tk_recv t k)) ticks, snd p || existsb (fun t => seen 2 (tk_recv t k)) ticks).

Lemma flags_after_full : forall ticks k p, both p = true -> flags_after ticks k p = p.
Proof. intros ticks k [[|] [|]] H; try discriminate. reflexivity. Qed.

Lemma within_step : forall timeout started k rest,
  within timeout started (k :: rest) =
  (if tk_check k - started <=? timeout * 1000000000 then k :: within timeout started rest else within timeout started rest).
Proof. reflexivity. Qed.

Lemma within_over : forall timeout started ticks last, clock started last ticks -> timeout * ns_per_second < last - started ->
  within timeout started ticks = [].
Proof.
  intros timeout started. unfold ns_per_second. induction ticks as [|k rest IH]; intros last C O; [reflexivity|].
  pose proof (clock_step _ _ _ _ C) as (C1 & C2 & C3 & C4). rewrite within_step.
  destruct (Z.leb_spec (tk_check k - started) (timeout * 1000000000)); [lia|]. apply (IH last); auto.
Qed.

Lemma run_said : forall P timeout continuous started name, wf_platform P -> 0 <= timeout * ns_per_second < 2 ^ 64 ->
  ~ In ":"%char (list_ascii_of_string name) ->
  forall ticks last g fl r out, clock started last ticks -> named g -> Forall iface_typed g -> (List.length g <= 255)%nat ->
  ticks_ok (List.length g) ticks -> List.length fl = List.length g ->
  run_console P timeout continuous started last ticks g (LoopBack (map m fl) (settled (List.length g) fl)) = Ret (r, out) ->
  exists fin, List.length fin = List.length g /\
    (forall k, (k < List.length g)%nat -> nth k fin (false, false) = flags_after (within timeout started ticks) k (nth k fl (false, false))) /\
    (said (got_all name) (lines out) + done name (map getInterfaceName g) fl = done name (map getInterfaceName g) fin)%nat.
Proof.
  intros P timeout continuous started name W T NC. induction ticks as [|k rest IH]; intros last g fl r out C N TG B R LF H.
  { cbn [run_console] in H. assert (out = "") as -> by congruence. exists fl. split; [auto|]. split; [|reflexivity].
    intros j J. unfold flags_after. cbn [within List.filter existsb]. rewrite !orb_false_r. destruct (nth j fl _); reflexivity. }
  cbn [run_console] in H. pose proof (clock_step _ _ _ _ C) as (C1 & C2 & C3 & C4). destruct C as (C5 & C6 & C7 & C8).
  rewrite timed_out_eq in H by (auto; lia). cbn [bind] in H. rewrite within_step. unfold ns_per_second in H at 1.
  destruct (Z.ltb_spec (timeout * 1000000000) (tk_check k - started)) as [O|O].
  { destruct (Z.leb_spec (tk_check k - started) (timeout * 1000000000)); [lia|].
    rewrite (within_over timeout started rest (tk_now k)) by (auto; unfold ns_per_second; lia).
    assert (OUT : out = ("Test timed out after " ++ number timeout) ++ endl) by (rewrite append_assoc; congruence).
    assert (TX : is_text out ["Test timed out after " ++ number timeout]) by (rewrite OUT; apply is_text_line; one_line_tac).
    rewrite (is_text_lines _ _ TX). exists fl. split; [auto|]. split.
    - intros j J. unfold flags_after. cbn [existsb]. rewrite !orb_false_r. destruct (nth j fl _); reflexivity.
    - rewrite said_dull; [reflexivity|]. constructor; [|constructor]. split; cbn; discriminate. }
  destruct (Z.leb_spec (tk_check k - started) (timeout * 1000000000)); [|lia].
  apply bind_ret_inv in H. destruct H as (sel & _ & H). apply bind_ret_inv in H. destruct H as (period & _ & H).
  apply bind_ret_inv in H. destruct H as ([g' batch] & RR & H).
  apply bind_ret_inv in H. destruct H as ([f s] & EV & H). apply bind_ret_inv in H. destruct H as ([r' more] & MR & H).
  destruct (printed_text (ns_per_second <=? period) g N) as (lp & TP & DP). specialize (DP name NC).
  set (printed := if ns_per_second <=? period then String.concat _ _ else _) in *. clearbody printed.
  assert (OUT : out = printed ++ s ++ more) by congruence. clear H.
  inversion R as [|? ? R1 R2]; subst.
  assert (CG : getInterfaceCount g = Z.of_nat (List.length g)) by (unfold getInterfaceCount; lia). rewrite CG, Nat2Z.id in RR.
  destruct (read_round_ok (List.length g) 0 (tk_recv k) g (repeat (frame_default mtu) RxFramesLen)) as (g1 & b1 & RR1 & L' & T' & BT);
    auto using default_typed; [intros j J; apply R1; lia|].
  assert (g1 = g' /\ b1 = batch) as [-> ->] by (split; congruence). clear RR1.
  destruct (batch_ok _ _ _ _ BT) as [LB FB].
  pose proof (read_round_names _ _ _ _ _ _ _ RR) as NN.
  assert (N' : named g') by (eapply named_names; eauto).
  cbn [lb_result lb_found] in EV, MR.
  (* the flags after this iteration *)
  assert (X : exists fl' ls, f = map m fl' /\ List.length fl' = List.length g /\ is_text s ls /\
    (said (got_all name) ls + done name (map getInterfaceName g) fl = done name (map getInterfaceName g) fl')%nat /\
    (forall j, (j < List.length g)%nat -> nth j fl' (false, false) = flags_after [k] j (nth j fl (false, false))) /\
    (settled (List.length g) fl = Success -> settled (List.length g) fl' = Success)).
  { destruct (result_not (settled (List.length g) fl)) eqn:RN.
    - destruct (evaluate_round_said g' name N' batch [] fl) as (o & ls & E & TX & CT); [lia|cbn [List.length]; lia|auto|].
      cbn [List.length app skipn] in E, CT. rewrite E in EV. exists (upds fl batch), ls.
      assert (f = map m (upds fl batch) /\ s = o) as [-> ->] by (split; congruence).
      split; [reflexivity|]. split; [now rewrite upds_length|]. split; [exact TX|]. split; [now rewrite NN in CT|]. split.
      + intros j J. rewrite (upds_nth (List.length g) 0 (tk_recv k) batch fl j) by auto. unfold flags_after. cbn [existsb Nat.add].
        now rewrite !orb_false_r.
      + intros Q. rewrite Q in RN. discriminate.
    - assert (f = map m fl /\ s = "") as [-> ->] by (split; congruence). exists fl, []. split; [reflexivity|]. split; [auto|].
      split; [apply is_text_nil|]. split; [reflexivity|]. split; [|auto].
      intros j J. symmetry. apply flags_after_full. unfold settled in RN. destruct (0 <? _); [|discriminate]. cbn [andb] in RN.
      destruct (forallb both fl) eqn:FA; [|discriminate]. rewrite forallb_forall in FA. apply FA. apply nth_In. lia. }
  destruct X as (fl' & ls & -> & LF' & TX & CT & FL & ST).
  assert (SF : (if isComplete g' (map m fl') then Success else settled (List.length g) fl) = settled (List.length g) fl').
  { rewrite isComplete_eq by lia. rewrite L'. unfold settled at 2. destruct (_ && forallb both fl') eqn:Q; [reflexivity|].
    unfold settled in ST. rewrite Q in ST. unfold settled. destruct (_ && forallb both fl); [discriminate ST; reflexivity|reflexivity]. }
  (* the rest *)
  assert (Y : exists fin, List.length fin = List.length g /\
    (forall j, (j < List.length g)%nat -> nth j fin (false, false) = flags_after (within timeout started rest) j (nth j fl' (false, false))) /\
    (said (got_all name) (lines more) + done name (map getInterfaceName g) fl' = done name (map getInterfaceName g) fin)%nat).
  { assert (IH' : forall last' r'' , last' = tk_now k \/ last' = last ->
      run_console P timeout continuous started last' rest g' (LoopBack (map m fl') (settled (List.length g) fl')) = Ret (r'', more) ->
      exists fin, List.length fin = List.length g /\
        (forall j, (j < List.length g)%nat -> nth j fin (false, false) = flags_after (within timeout started rest) j (nth j fl' (false, false))) /\
        (said (got_all name) (lines more) + done name (map getInterfaceName g) fl' = done name (map getInterfaceName g) fin)%nat).
    { intros last' r'' LL RC. rewrite <- L' in RC. destruct (IH last' g' fl' r'' more) as (fin & Q1 & Q2 & Q3); auto; try lia.
      - destruct LL as [-> | ->]; auto.
      - rewrite L'. exact R2.
      - rewrite L' in Q1, Q2. rewrite NN in Q3. eauto. }
    assert (LL : (if ns_per_second <=? period then tk_now k else last) = tk_now k \/ (if ns_per_second <=? period then tk_now k else last) = last)
      by (destruct (_ <=? _); auto).
    destruct (isComplete g' (map m fl')) eqn:IC.
    - destruct (negb continuous).
      + assert (more = "") as -> by congruence. exists fl'. split; [auto|]. split; [|reflexivity].
        intros j J. symmetry. apply flags_after_full. rewrite isComplete_eq in IC by lia. apply andb_true_iff in IC. destruct IC as [_ IC].
        rewrite forallb_forall in IC. apply IC. apply nth_In. lia.
      + rewrite SF in MR. eapply IH'; [exact LL|exact MR].
    - rewrite SF in MR. eapply IH'; [exact LL|exact MR]. }
  destruct Y as (fin & LN & FN & CN).
  assert (RT : exists lm, is_text more lm).
  { assert (Z0 : forall lb0, lb_result lb0 = Success \/ lb_result lb0 = Failure -> forall la,
      run_console P timeout continuous started la rest g' lb0 = Ret (r', more) -> exists lm, is_text more lm).
    { intros lb0 LB0 la RC. destruct (run_text _ _ _ _ _ _ _ _ _ _ N' LB0 RC) as (lm & TM & _). eauto. }
    assert (S2 : settled (List.length g) fl = Success \/ settled (List.length g) fl = Failure) by (unfold settled; destruct (_ && _); auto).
    destruct (isComplete g' (map m fl')); [destruct (negb continuous)|].
    - assert (more = "") as -> by congruence. exists []. apply is_text_nil.
    - eapply Z0; [|exact MR]. auto.
    - eapply Z0; [|exact MR]. exact S2. }
  destruct RT as (lm & TM).
  assert (TO : is_text (printed ++ s ++ more) (lp ++ ls ++ lm)%list) by (repeat apply is_text_app; auto).
  rewrite (is_text_lines _ _ TM) in CN. rewrite (is_text_lines _ _ TO).
  exists fin. split; [exact LN|]. split.
  - intros j J. rewrite FN, FL by auto. unfold flags_after. cbn [existsb fst snd]. rewrite !orb_false_r, <- !orb_assoc. reflexivity.
  - rewrite !said_app, (said_dull name lp DP). lia.
Qed.

(** ** The lines about opening *)
Lemma write_taken : forall k s, fresh s -> exists w, write k s test_frames TxTestFramesLen = Ret w /\
  iface_typed (wr_if w) /\ (isSuccess (wr_result w) = true <-> 0 < fst (k [test_message 1; test_message 2])) /\
  (0 < fst (k [test_message 1; test_message 2]) -> wr_count w = fst (k [test_message 1; test_message 2])).
Proof.
  intros k s FS. destruct (write_test_frames k s FS) as (w & W & TW & SW & RW). exists w. split; [exact W|]. split; [exact TW|].
  split; [exact RW|]. intros POS. assert (TS := fresh_typed s FS). unfold write in W. change (TxTestFramesLen =? 0)%nat with false in W. cbn iota in W.
  apply bind_ret_inv in W. destruct W as (b & _ & W). cbn zeta in W.
  assert (SB : firstn TxTestFramesLen b = [test_message 1; test_message 2]).
  { destruct (k (firstn TxTestFramesLen b)) as [res errno]. destruct (res <=? 0); [|destruct (res <? _)];
      match type of W with Ret ?x = _ => assert (w = x) as E by congruence end; rewrite E in SW; cbn [wr_sent] in SW; congruence. }
  rewrite SB in W. destruct (k [test_message 1; test_message 2]) as [res errno]. cbn [fst] in *.
  destruct (Z.leb_spec res 0); [lia|]. destruct (res <? _); match type of W with Ret ?x = _ => assert (w = x) as -> by congruence end; reflexivity.
Qed.

Lemma nth_names : forall (g : group) i s, nth_error g i = Some s -> nth i (map getInterfaceName g) "" = getInterfaceName s.
Proof. induction g as [|x g IH]; intros [|i] s H; try discriminate; cbn in *; [congruence|auto]. Qed.

Lemma start_writes_lines : forall n i send g found, Forall iface_typed g -> named g -> (i + n <= List.length g)%nat ->
  (forall j s, (i <= j)%nat -> nth_error g j = Some s -> fresh s) ->
  let says := fun j => enqueued (fst (send j [test_message 1; test_message 2])) (nth j (map getInterfaceName g) "") in
  exists g' found' ok sents out, start_writes_c n i send g found = Ret (g', found', ok, sents, out) /\
    map getInterfaceName g' = map getInterfaceName g /\
    (if ok : bool
     then is_text out (map says (seq i n)) /\ forall k, (i <= k < i + n)%nat -> 0 < fst (send k [test_message 1; test_message 2])
     else exists d, (d < n)%nat /\ ~ 0 < fst (send (i + d)%nat [test_message 1; test_message 2]) /\
       (forall k, (i <= k < i + d)%nat -> 0 < fst (send k [test_message 1; test_message 2])) /\
       is_text out (map says (seq i d) ++ [not_enqueued (nth (i + d) (map getInterfaceName g) "")])%list).
Proof.
  induction n as [|n IH]; intros i send g found TG N L FG says; cbn [start_writes_c].
  { do 5 eexists. split; [reflexivity|]. split; [reflexivity|]. cbn iota. split; [apply is_text_nil|lia]. }
  unfold group_write. destruct (Z.leb_spec (Z.of_nat (List.length g)) (Z.of_nat i)); [lia|]. rewrite Nat2Z.id.
  destruct (nth_error g i) as [s|] eqn:E; [|apply nth_error_None in E; lia].
  assert (FS : fresh s) by (apply (FG i s); auto).
  destruct (write_taken (send i) s FS) as (w & W & TW & RW & CW). pose proof (write_name _ _ _ _ _ W) as WN. rewrite W. cbn [bind].
  set (g1 := replace_nth i (wr_if w) g).
  assert (N1 : map getInterfaceName g1 = map getInterfaceName g) by (unfold g1; eapply replace_names; eauto).
  assert (LG : List.length g1 = List.length g) by apply replace_nth_length.
  assert (NM : group_getInterfaceName g1 (Z.of_nat i) = getInterfaceName s).
  { unfold group_getInterfaceName. rewrite LG. destruct (Z.leb_spec (Z.of_nat (List.length g)) (Z.of_nat i)); [lia|]. rewrite Nat2Z.id.
    destruct (nth_error g1 i) as [s'|] eqn:E1; [|apply nth_error_None in E1; lia].
    rewrite <- (nth_names _ _ _ E1), N1. apply nth_names. exact E. }
  rewrite NM. change (negb (result_not (wr_result w))) with (isSuccess (wr_result w)).
  assert (ON : one_line (getInterfaceName s)) by (unfold named in N; rewrite Forall_forall in N; apply N; eapply nth_error_In; eauto).
  destruct (isSuccess (wr_result w)) eqn:IS.
  - assert (POS : 0 < fst (send i [test_message 1; test_message 2])) by now apply RW.
    destruct (IH (S i) send g1 (found ++ [0])%list) as (g2 & f2 & ok & sents & out & -> & M2 & TX);
      [unfold g1; now apply replace_nth_Forall|eapply named_names; eauto|lia|unfold g1; apply fresh_later; auto|].
    cbn [bind]. rewrite N1 in TX, M2. change (fun j : nat => enqueued _ _) with says in TX. do 5 eexists. split; [reflexivity|]. split; [exact M2|].
    assert (HD : forall ls, is_text out ls -> is_text ("Successfully enqueued " ++ number (wr_count w) ++ " frame(s) on interface " ++ getInterfaceName s ++ endl ++ out)
                   (says i :: ls)).
    { intros ls T. unfold says. rewrite (nth_names _ _ _ E), <- (CW POS). unfold enqueued. change (decimal (wr_count w)) with (number (wr_count w)).
      replace ("Successfully enqueued " ++ number (wr_count w) ++ " frame(s) on interface " ++ getInterfaceName s ++ endl ++ out)
        with (("Successfully enqueued " ++ number (wr_count w) ++ " frame(s) on interface " ++ getInterfaceName s) ++ endl ++ out)
        by (rewrite !append_assoc; reflexivity).
      apply is_text_cons; [one_line_tac|exact T]. }
    destruct ok.
    + destruct TX as [TX A]. split; [cbn [seq map]; now apply HD|]. intros k K. destruct (Nat.eq_dec k i) as [->|]; [exact POS|apply A; lia].
    + destruct TX as (d & D1 & D2 & D3 & D4). exists (S d). replace (i + S d)%nat with (S i + d)%nat by lia.
      split; [lia|]. split; [exact D2|]. split; [intros k K; destruct (Nat.eq_dec k i) as [->|]; [exact POS|apply D3; lia]|].
      cbn [seq map app]. now apply HD.
  - do 5 eexists. split; [reflexivity|]. split; [exact N1|]. exists 0%nat. split; [lia|]. rewrite Nat.add_0_r.
    split; [intros Q; apply RW in Q; congruence|]. split; [lia|]. cbn [seq map app]. rewrite (nth_names _ _ _ E). unfold not_enqueued.
    rewrite <- append_assoc. apply is_text_line. one_line_tac.
Qed.

Lemma opening_lines : forall fuel m kernel send w og lb sents w' text, (List.length (m_required m) <= 255)%nat ->
  (List.length (m_required m) < fuel)%nat -> Forall one_line (m_required m) -> m_own m = true ->
  start_test_c fuel loopback_make m kernel send w = Some (Ret (og, lb, sents, w', text)) -> text <> "" ->
  exists names, match og with
  | Some g => names = map getInterfaceName g /\ accepted send (List.length names) /\
      lines text = opened (Z.of_nat (List.length names)) :: enqueued_lines send names (List.length names)
  | None => exists k name, nth_error names k = Some name /\ accepted send k /\ ~ 0 < fst (send k [test_message 1; test_message 2]) /\
      lines text = (opened (Z.of_nat (List.length names)) :: enqueued_lines send names k ++ [not_enqueued name])%list
  end.
Proof.
  intros fuel m kernel send w og lb sents w' text B F N OWN H NT. unfold start_test_c in H. cbn [loopback_make lb_found List.length] in H.
  change (0 <? Z.of_nat 0) with false in H. cbn iota in H. unfold doesReceiveOwnMessages in H. rewrite OWN in H. cbn [negb] in H.
  assert (OK : configs_ok (Some test_filters) 1) by (cbn; lia). change (List.length test_filters) with 1%nat in H.
  destruct (start_spec m (Some test_filters) 1 kernel None w OK B) as (ans & r & out & w1 & ST & LA & AK & RN & RS & RC & ON & OG).
  pose proof (ST fuel F) as ST1. rewrite ST in H by lia.
  destruct (Z.eq_dec r NotFound) as [NFR|NFR].
  { rewrite NFR in H. change (isFailure NotFound) with true in H. cbn iota in H. exfalso. apply NT. injection H; intros; subst; reflexivity. }
  assert (SF : isFailure r = false) by (destruct RC as [R|[R|R]]; [congruence|rewrite R; reflexivity|rewrite R; reflexivity]).
  rewrite SF in H. destruct (OG NFR) as (g & EG & M1 & M2 & SO). rewrite EG in H.
  assert (FG : forall s, In s g -> fresh s) by (intros s S; destruct (M2 s S) as (t & name & a & _ & _ & ->); unfold fresh; eauto).
  assert (TG : Forall iface_typed g) by (apply Forall_forall; intros s S; now apply fresh_typed, FG).
  assert (NG : named g).
  { apply Forall_forall. intros s S. destruct (M2 s S) as (t & name & a & E & _ & ->). rewrite Forall_forall in N. apply N. eapply nth_error_In; eauto. }
  assert (LG : (List.length g <= 255)%nat).
  { transitivity (List.length (m_required m)); [|exact B]. apply sorted_length; auto. intros s S. destruct (M2 s S) as (t & name & a & E & _ & ->). cbn [iface_make if_index].
    assert (t < List.length (m_required m))%nat by (apply nth_error_Some; congruence). lia. }
  assert (C : getInterfaceCount g = Z.of_nat (List.length g)) by (unfold getInterfaceCount; lia). rewrite C, Nat2Z.id in H.
  assert (PG : g <> []).
  { unfold startInterfaceGroup in ST1. destruct (start_loop _ _ _ _ _ _ _ _ _) as [[[[|s l] w2]|]|]; try discriminate.
    - exfalso. apply NFR. injection ST1; intros; subst; reflexivity.
    - assert (g = s :: l) as -> by congruence. discriminate. }
  destruct (start_writes_lines (List.length g) 0 send g [] TG NG ltac:(lia) ltac:(intros j s _ S; apply FG; eapply nth_error_In; eauto))
    as (g' & f' & ok & s' & t' & SW & NM & TX).
  rewrite SW in H. assert (Z.of_nat (List.length g) > 0) by (destruct g; [congruence|cbn [List.length]; lia]).
  destruct (Z.ltb_spec 0 (Z.of_nat (List.length g))) as [_|]; [|lia]. cbn [andb] in H.
  exists (map getInterfaceName g). rewrite map_length.
  assert (HD : forall ls, is_text t' ls -> text = ("Opened " ++ number (Z.of_nat (List.length g)) ++ " interface(s)." ++ endl) ++ t' ->
    lines text = opened (Z.of_nat (List.length g)) :: ls).
  { intros ls T ->. apply is_text_lines. unfold opened. change (decimal (Z.of_nat (List.length g))) with (number (Z.of_nat (List.length g))).
    rewrite !append_assoc. replace ("Opened " ++ number (Z.of_nat (List.length g)) ++ " interface(s)." ++ endl ++ t')
      with (("Opened " ++ number (Z.of_nat (List.length g)) ++ " interface(s).") ++ endl ++ t') by (rewrite !append_assoc; reflexivity).
    apply is_text_cons; [one_line_tac|exact T]. }
  destruct ok.
  - assert (og = Some g' /\ text = ("Opened " ++ number (Z.of_nat (List.length g)) ++ " interface(s)." ++ endl) ++ t') as [-> TE] by (split; injection H; intros; subst; reflexivity).
    destruct TX as [TX A]. rewrite NM. split; [reflexivity|]. split; [intros k K; apply A; lia|]. exact (HD _ TX TE).
  - assert (og = None /\ text = ("Opened " ++ number (Z.of_nat (List.length g)) ++ " interface(s)." ++ endl) ++ t') as [-> TE] by (split; injection H; intros; subst; reflexivity).
    destruct TX as (d & D1 & D2 & D3 & D4). cbn [Nat.add] in *. exists d, (nth d (map getInterfaceName g) "").
    split; [rewrite (nth_error_nth' _ ""); [reflexivity|rewrite map_length; lia]|].
    split; [intros k K; apply D3; lia|]. split; [exact D2|]. exact (HD _ D4 TE).
Qed.

(** ** The lines about statistics *)
Lemma statistics_text : forall name st, print_stats name st = statistics_line name st ++ endl.
Proof.
  intros name st. unfold print_stats, statistics_line. cbn [map String.concat fst snd].
  change decimal with number. rewrite !append_assoc. cbn [String.append]. reflexivity.
Qed.

Lemma has_colon_in : forall s, has_colon s = true <-> In ":"%char (list_ascii_of_string s).
Proof.
  intros s. unfold has_colon. rewrite existsb_exists. split.
  - intros (c & I & E). apply Ascii.eqb_eq in E. now subst.
  - intros I. exists ":"%char. split; [exact I|reflexivity].
Qed.
Lemma has_colon_not : forall s, has_colon s = false <-> ~ In ":"%char (list_ascii_of_string s).
Proof. intros s. rewrite <- has_colon_in. destruct (has_colon s); split; intros; congruence. Qed.
Lemma has_colon_app : forall a b, has_colon (a ++ b) = has_colon a || has_colon b.
Proof. intros a b. unfold has_colon. rewrite list_app. apply existsb_app. Qed.
Lemma number_no_colon : forall z, has_colon (number z) = false.
Proof.
  assert (U : forall d, has_colon (NilEmpty.string_of_uint d) = false).
  { induction d; unfold has_colon in *; cbn [NilEmpty.string_of_uint list_ascii_of_string existsb]; auto. }
  intros z. unfold number, NilZero.string_of_int. destruct (Z.to_int z) as [d|d].
  - unfold NilZero.string_of_uint. destruct d; try apply U. reflexivity.
  - assert (H : forall s, has_colon s = false -> has_colon (String "-" s) = false) by (intros s O; exact O).
    apply H. unfold NilZero.string_of_uint. destruct d; try apply U. reflexivity.
Qed.
Lemma statistics_colon : forall name st, has_colon (statistics_line name st) = true.
Proof. intros name st. unfold statistics_line. rewrite !has_colon_app. cbn. now rewrite orb_true_r. Qed.

Definition plain (g : group) : Prop := Forall (fun s => one_line (getInterfaceName s) /\ has_colon (getInterfaceName s) = false) g.
Lemma plain_named : forall g, plain g -> named g.
Proof. intros g H. eapply Forall_impl; [|exact H]. cbn. tauto. Qed.
Lemma plain_names : forall g g', map getInterfaceName g' = map getInterfaceName g -> plain g -> plain g'.
Proof.
  unfold plain. intros g g' E N. rewrite <- (Forall_map getInterfaceName (fun n => one_line n /\ has_colon n = false)) in *. now rewrite E.
Qed.

Definition quiet (ls : list string) : Prop := List.filter has_colon ls = [].
Lemma quiet_app : forall a b, quiet a -> quiet b -> quiet (a ++ b)%list.
Proof. unfold quiet. intros a b A B. now rewrite filter_app, A, B. Qed.

Lemma evaluate_quiet : forall g i fs found f out, plain g -> evaluate_c g i fs found = Ret (f, out) ->
  exists ls, is_text out ls /\ quiet ls.
Proof.
  intros g i fs found f out N H. unfold evaluate_c in H. destruct (nth_error found i) as [v|]; [|discriminate].
  set (ev := "Evaluating " ++ number (Z.of_nat (List.length fs)) ++ " frame(s)...").
  assert (OE : one_line ev) by (unfold ev; one_line_tac).
  assert (QE : quiet [ev]) by (unfold quiet, ev; cbn [List.filter]; rewrite !has_colon_app, number_no_colon; reflexivity).
  assert (EE : "Evaluating " ++ number (Z.of_nat (List.length fs)) ++ " frame(s)..." ++ endl = ev ++ endl)
    by (unfold ev; now rewrite !append_assoc).
  rewrite EE in H. clear EE. clearbody ev.
  destruct (v =? 3).
  { assert (out = ev ++ endl) as -> by congruence. exists [ev]. split; [now apply is_text_line|exact QE]. }
  apply bind_ret_inv in H. destruct H as (v' & _ & H).
  pose proof (group_name_one_line g (Z.of_nat i) (plain_named g N)) as O.
  assert (CN : has_colon (group_getInterfaceName g (Z.of_nat i)) = false).
  { unfold group_getInterfaceName. destruct (_ <=? _); [reflexivity|]. destruct (nth_error g _) as [s|] eqn:E; [|reflexivity].
    unfold plain in N. rewrite Forall_forall in N. apply (N s). eapply nth_error_In; eauto. }
  set (nm := group_getInterfaceName g (Z.of_nat i)) in *. clearbody nm.
  destruct (v' =? 3).
  - assert (out = (ev ++ endl) ++ (got_all nm ++ endl)) as -> by (unfold got_all; rewrite (append_assoc "...Got all frames for interface "); congruence).
    exists ([ev] ++ [got_all nm])%list. split; [apply is_text_app; apply is_text_line; auto; unfold got_all; one_line_tac|].
    apply quiet_app; [exact QE|]. unfold quiet, got_all. cbn [List.filter]. rewrite has_colon_app, CN. reflexivity.
  - assert (out = ev ++ endl) as -> by (rewrite append_nil_r in H; congruence). exists [ev]. split; [now apply is_text_line|exact QE].
Qed.

Lemma evaluate_round_quiet : forall g, plain g -> forall batch i found f out, evaluate_round_c g i batch found = Ret (f, out) ->
  exists ls, is_text out ls /\ quiet ls.
Proof.
  intros g N. induction batch as [|[r fs] batch IH]; intros i found f out H; cbn [evaluate_round_c] in H.
  - assert (out = "") as -> by congruence. exists []. split; [apply is_text_nil|reflexivity].
  - apply bind_ret_inv in H. destruct H as ([f1 s1] & E1 & H). apply bind_ret_inv in H. destruct H as ([f2 s2] & E2 & H).
    assert (out = s1 ++ s2) as -> by congruence. destruct (IH _ _ _ _ E2) as (l2 & T2 & P2).
    assert (X : exists l1, is_text s1 l1 /\ quiet l1).
    { destruct (_ && _); [eapply evaluate_quiet; eauto|]. assert (s1 = "") as -> by congruence. exists []. split; [apply is_text_nil|reflexivity]. }
    destruct X as (l1 & T1 & P1). exists (l1 ++ l2)%list. split; [now apply is_text_app|now apply quiet_app].
Qed.

Lemma stats_printed : forall (due : bool) (t : Z) g, plain g ->
  let rows : list report := if due then [(t, print_all g)] else [] in
  is_text (if due then String.concat "" (map (fun x => print_stats (fst x) (snd x)) (print_all g)) else "")
    (flat_map (fun rep => map (fun x => statistics_line (fst x) (snd x)) (snd rep)) rows).
Proof.
  intros due t g N rows. unfold rows. destruct due; [|apply is_text_nil]. cbn [flat_map snd]. rewrite app_nil_r.
  unfold print_all. assert (NF : plain (firstn (Z.to_nat (getInterfaceCount g)) g)).
  { unfold plain in *. rewrite <- (firstn_skipn (Z.to_nat (getInterfaceCount g)) g) in N. apply Forall_app in N. tauto. }
  revert NF. generalize (firstn (Z.to_nat (getInterfaceCount g)) g). clear g N rows.
  assert (CC : forall x xs, String.concat "" (x :: xs) = x ++ String.concat "" xs).
  { intros x [|y ys]; cbn [String.concat]; [now rewrite append_nil_r|reflexivity]. }
  intros g. induction g as [|s g IH]; intros N; [apply is_text_nil|].
  inversion N as [|? ? N1 N2]; subst. cbn [map fst snd]. rewrite CC, statistics_text, append_assoc. apply is_text_cons; [|auto].
  unfold statistics_line. cbn [map String.concat fst snd]. change decimal with number. destruct N1. one_line_tac.
Qed.

Lemma rows_colon : forall rows : list report,
  List.filter has_colon (flat_map (fun rep => map (fun x => statistics_line (fst x) (snd x)) (snd rep)) rows) =
  flat_map (fun rep => map (fun x => statistics_line (fst x) (snd x)) (snd rep)) rows.
Proof.
  induction rows as [|[t l] rows IH]; [reflexivity|]. cbn [flat_map snd]. rewrite filter_app, IH. f_equal.
  induction l as [|x l IHl]; [reflexivity|]. cbn [map List.filter]. rewrite statistics_colon. now rewrite IHl.
Qed.

Lemma run_statistics : forall P timeout continuous started ticks last g lb r out r' reps, plain g ->
  run_console P timeout continuous started last ticks g lb = Ret (r, out) ->
  run_timed P timeout continuous started last ticks g lb = Ret (r', reps) ->
  exists ls, is_text out ls /\ r' = r /\
  List.filter has_colon ls = flat_map (fun rep => map (fun x => statistics_line (fst x) (snd x)) (snd rep)) reps.
Proof.
  intros P timeout continuous started. induction ticks as [|k rest IH]; intros last g lb r out r' reps N H H'; cbn [run_console run_timed] in H, H'.
  { assert (r = None /\ out = "" /\ r' = None /\ reps = []) as (-> & -> & -> & ->) by (repeat split; congruence).
    exists []. split; [apply is_text_nil|auto]. }
  apply bind_ret_inv in H. destruct H as (over & TO & H). rewrite TO in H'. cbn [bind] in H'. destruct over; cbn iota in H, H'.
  { assert (out = ("Test timed out after " ++ number timeout) ++ endl) as -> by (rewrite append_assoc; congruence).
    assert (reps = [] /\ r' = r) as (-> & ->) by (injection H' as <- <-; split; [reflexivity|congruence]).
    eexists. split; [apply is_text_line; one_line_tac|]. split; [reflexivity|]. cbn [List.filter flat_map]. rewrite has_colon_app, number_no_colon. reflexivity. }
  apply bind_ret_inv in H. destruct H as (sel & SE & H). rewrite SE in H'. cbn [bind] in H'.
  apply bind_ret_inv in H. destruct H as (period & PE & H). rewrite PE in H'. cbn [bind] in H'.
  apply bind_ret_inv in H. destruct H as ([g' batch] & RR & H). rewrite RR in H'. cbn [bind] in H'.
  apply bind_ret_inv in H. destruct H as ([f s] & EV & H). apply bind_ret_inv in H. destruct H as ([r1 more] & MR & H).
  assert (r = r1) as -> by congruence.
  assert (N' : plain g') by (eapply plain_names; [eapply read_round_names; eauto|exact N]).
  assert (EF : (if result_not (lb_result lb) then evaluate_round 0 batch (lb_found lb) else Ret (lb_found lb)) = Ret f).
  { rewrite (evaluate_round_erase g'). destruct (result_not (lb_result lb)); [rewrite EV; reflexivity|congruence]. }
  rewrite EF in H'. cbn [bind] in H'. apply bind_ret_inv in H'. destruct H' as ([r2 reps2] & MR' & H').
  pose proof (stats_printed (ns_per_second <=? period) (tk_now k) g N) as TP. cbn zeta in TP.
  set (printed := if ns_per_second <=? period then String.concat _ _ else _) in *. clearbody printed.
  set (rows := if ns_per_second <=? period then [_] else _) in *. clearbody rows.
  assert (out = printed ++ s ++ more) as -> by congruence. clear H.
  assert (reps = (rows ++ reps2)%list) as -> by congruence. assert (r' = r2) as -> by congruence. clear H'.
  assert (X : exists l1, is_text s l1 /\ quiet l1).
  { destruct (result_not _); [eapply evaluate_round_quiet; eauto|]. assert (s = "") as -> by congruence. exists []. split; [apply is_text_nil|reflexivity]. }
  destruct X as (l1 & T1 & P1).
  assert (Y : exists l2, is_text more l2 /\ r2 = r1 /\
    List.filter has_colon l2 = flat_map (fun rep => map (fun x => statistics_line (fst x) (snd x)) (snd rep)) reps2).
  { destruct (isComplete g' f); [destruct (negb continuous)|].
    - assert (r1 = Some Success /\ more = "" /\ r2 = Some Success /\ reps2 = []) as (-> & -> & -> & ->) by (repeat split; congruence).
      exists []. split; [apply is_text_nil|auto].
    - eapply IH; [exact N'|exact MR|exact MR'].
    - eapply IH; [exact N'|exact MR|exact MR']. }
  destruct Y as (l2 & T2 & -> & C). eexists. split; [apply is_text_app; [exact TP|apply is_text_app; [exact T1|exact T2]]|].
  split; [reflexivity|]. rewrite !filter_app, rows_colon, P1, C, flat_map_app. reflexivity.
Qed.

(** ** The interfaces that are done, as positions *)
Lemma done_positions : forall name names fl, List.length names = List.length fl ->
  exists js, NoDup js /\ done name names fl = List.length js /\
    forall j, In j js <-> nth_error names j = Some name /\ both (nth j fl (false, false)) = true.
Proof.
  induction names as [|n names IH]; intros [|p fl] L; try discriminate.
  - exists []. split; [constructor|]. split; [reflexivity|]. intros j. split; [intros []|]. intros [E _]. destruct j; discriminate.
  - destruct (IH fl) as (js & ND & C & I); [cbn in L; lia|]. cbn [done].
    assert (NS : NoDup (map S js)) by (apply FinFun.Injective_map_NoDup; [intros a b; congruence|exact ND]).
    assert (IS : forall j, In (S j) (map S js) <-> nth_error names j = Some name /\ both (nth j fl (false, false)) = true).
    { intros j. rewrite <- I, in_map_iff. split; [intros (x & E & X); congruence|eauto]. }
    assert (N0 : ~ In 0%nat (map S js)) by (rewrite in_map_iff; intros (x & E & _); discriminate).
    destruct (both p && String.eqb n name) eqn:B.
    + exists (0%nat :: map S js). split; [constructor; auto|]. split; [cbn [List.length]; rewrite map_length; lia|].
      apply andb_true_iff in B. destruct B as [B1 B2]. apply String.eqb_eq in B2. subst n.
      intros [|j]; cbn [In nth_error nth]; [split; auto|]. rewrite <- IS. split; [intros [X|X]; [discriminate|exact X]|auto].
    + exists (map S js). split; [exact NS|]. split; [rewrite map_length; lia|].
      intros [|j]; cbn [nth_error nth]; [|apply IS]. split; [contradiction|]. intros [E B1]. exfalso.
      assert (n = name) as -> by congruence. rewrite B1, String.eqb_refl in B. discriminate.
Qed.

Lemma deliveries_seen : forall ticks k id,
  existsb (fun t => seen id (tk_recv t k)) ticks = existsb (fun rn => seen id (rn_recv rn k)) (deliveries ticks).
Proof. intros ticks k id. unfold deliveries. induction ticks as [|t ticks IH]; [reflexivity|]. cbn [map existsb rn_recv]. now rewrite IH. Qed.

Lemma interfaces_reported : forall P timeout continuous started last ticks g r out name,
  wf_platform P -> 0 <= timeout * 1000000000 < 2 ^ 64 -> steady started last ticks -> Forall iface_typed g -> (List.length g <= 255)%nat ->
  ticks_ok (List.length g) ticks -> Forall one_line (map getInterfaceName g) -> has_colon name = false ->
  run_console P timeout continuous started last ticks g (LoopBack (repeat 0 (List.length g)) Failure) = Ret (r, out) ->
  exists js, NoDup js /\
    (forall j, In j js <-> nth_error (map getInterfaceName g) j = Some name /\
       arrived (deliveries (within timeout started ticks)) j 1 /\ arrived (deliveries (within timeout started ticks)) j 2) /\
    count_occ string_dec (lines out) (got_all name) = List.length js.
Proof.
  intros P timeout continuous started last ticks g r out name W T S TG B R N NC H.
  assert (M : map m (repeat (false, false) (List.length g)) = repeat 0 (List.length g)) by (generalize (List.length g); induction n as [|n IHn]; cbn [repeat map]; [reflexivity|now rewrite IHn]).
  assert (S0 : settled (List.length g) (repeat (false, false) (List.length g)) = Failure) by (unfold settled; destruct (List.length g); reflexivity).
  rewrite <- M, <- S0 in H. apply has_colon_not in NC. apply steady_clock in S. rewrite Forall_map in N.
  destruct (run_said P timeout continuous started name W T NC ticks last g _ r out S N TG B R (repeat_length _ _) H) as (fin & LF & FN & CT).
  assert (Z0 : forall n names, done name names (repeat (false, false) n) = 0%nat).
  { induction n as [|n IHn]; intros [|x names]; cbn [repeat done]; try reflexivity. now rewrite IHn. }
  rewrite Z0, Nat.add_0_r in CT.
  destruct (done_positions name (map getInterfaceName g) fin) as (js & ND & C & I); [rewrite map_length; lia|].
  exists js. split; [exact ND|]. split; [|unfold said in CT; lia].
  intros j. rewrite I. split.
  - intros [E BB]. assert (J : (j < List.length g)%nat) by (rewrite <- (map_length getInterfaceName g); apply nth_error_Some; congruence).
    split; [exact E|]. rewrite FN, nth_repeat in BB by auto. unfold both, flags_after in BB. cbn [fst snd orb] in BB.
    rewrite !deliveries_seen, andb_true_iff, !seen_arrived in BB. exact BB.
  - intros [E BB]. assert (J : (j < List.length g)%nat) by (rewrite <- (map_length getInterfaceName g); apply nth_error_Some; congruence).
    split; [exact E|]. rewrite FN, nth_repeat by auto. unfold both, flags_after. cbn [fst snd orb].
    rewrite !deliveries_seen, andb_true_iff, !seen_arrived. exact BB.
Qed.
