(** Proofs for Props_Trace.v. *)
From Coq Require Import ZArith Bool String Ascii List Lia Sorted.
From Verif Require Import Outcome ResultModel CInt CanFrameModel CanFrameProofs SocketCanModel SocketCanSpec SocketCanProofs SocketCanHist
  GroupModel GroupSpec GroupProofs ManagerModel ParseArgsModel
  ManagerSpec ManagerProofs ParseArgsSpec ParseArgsProofs SatMathSpec LoopBackModel LoopBackSpec LoopBackProofs TimedModel TimedSpec TimedProofs
  MainModel MainProofs ConsoleModel ConsoleSpec ConsoleProofs TraceModel TraceSpec.
Import ListNotations.
Open Scope string_scope.
Open Scope Z_scope.

(** ** Output *)
Lemma concat_cons : forall x l, String.concat "" (x :: l) = x ++ String.concat "" l.
Proof. intros x [|y l]; cbn [String.concat]; [now rewrite append_nil_r|reflexivity]. Qed.
Lemma render_cons : forall on p l, render on (p :: l) = render_piece on p ++ render on l.
Proof. intros. unfold render. cbn [map]. apply concat_cons. Qed.
Lemma render_app : forall on a b, render on (a ++ b)%list = render on a ++ render on b.
Proof.
  intros on. induction a as [|x a IH]; intros b; [reflexivity|]. cbn [app]. rewrite !render_cons, IH. now rewrite append_assoc.
Qed.
Lemma render_nil : forall on, render on [] = "".
Proof. reflexivity. Qed.

(** Only traces. *)
Definition traces (out : output) : Prop := Forall (fun p => match p with Trace _ _ => True | Print _ => False end) out.
Lemma traces_off : forall out, traces out -> render false out = "".
Proof.
  induction 1 as [|p out T _ IH]; [reflexivity|]. rewrite render_cons, IH. destruct p; [contradiction|reflexivity].
Qed.
Lemma traces_app : forall a b, traces a -> traces b -> traces (a ++ b)%list.
Proof. intros. now apply Forall_app. Qed.
#[export] Hint Resolve traces_app : core.
Lemma traces_nil : traces [].
Proof. constructor. Qed.
#[export] Hint Resolve traces_nil : core.

(** ** Reading *)
Lemma cmsg_erase : forall size cs ts d, cmsg_loop size cs ts d = fst (cmsg_loop_t size cs ts d).
Proof.
  induction cs as [|c cs IH]; intros ts d; [reflexivity|]. cbn [cmsg_loop cmsg_loop_t].
  destruct (_ =? SOL_SOCKET); [destruct (_ && _); [apply IH|destruct (_ && _); [apply IH|]]|];
    rewrite IH; destruct (cmsg_loop_t _ _ _ _) as [[? ?] ?]; reflexivity.
Qed.
Lemma cmsg_traces : forall size cs ts d, traces (snd (cmsg_loop_t size cs ts d)).
Proof.
  induction cs as [|c cs IH]; intros ts d; [constructor|]. cbn [cmsg_loop_t].
  destruct (_ =? SOL_SOCKET); [destruct (_ && _); [apply IH|destruct (_ && _); [apply IH|]]|];
    specialize (IH ts d); destruct (cmsg_loop_t _ _ _ _) as [[? ?] ?]; constructor; auto.
Qed.

Lemma read_loop_erase : forall msgs i buf st out k,
  read_loop msgs i buf st out k = let* (st', o, n, _) := read_loop_t msgs i buf st out k in Ret (st', o, n).
Proof.
  induction msgs as [|m msgs IH]; intros i buf st out k; [reflexivity|]. cbn [read_loop read_loop_t].
  destruct (nth_error buf i) as [c|]; [|reflexivity]. destruct (nth_error out k) as [old|]; [|reflexivity].
  rewrite cmsg_erase. destruct (cmsg_loop_t _ _ _ _) as [[ts d] heads]. cbn [fst].
  destruct (has _ CAN_ERR_FLAG); [|destruct (has _ CAN_EFF_MASK)].
  - rewrite IH. destruct (read_loop_t _ _ _ _ _ _) as [[[[? ?] ?] ?]|]; reflexivity.
  - destruct (frame_make _ _ _ _ _) as [tmp|]; [|reflexivity]. cbn [bind]. destruct (frame_assign _ _ _) as [f|]; [|reflexivity]. cbn [bind].
    rewrite IH. destruct (read_loop_t _ _ _ _ _ _) as [[[[? ?] ?] ?]|]; reflexivity.
  - rewrite IH. destruct (read_loop_t _ _ _ _ _ _) as [[[[? ?] ?] ?]|]; reflexivity.
Qed.

Lemma read_erase : forall res errno msgs s out,
  read res errno msgs s out = let* (r, _) := read_t res errno msgs s out in Ret r.
Proof.
  intros. unfold read, read_t. destruct (res <=? 0); [reflexivity|]. cbn zeta. rewrite read_loop_erase.
  destruct (read_loop_t _ _ _ _ _ _) as [[[[? ?] ?] ?]|]; reflexivity.
Qed.

Lemma read_loop_traces : forall msgs i buf st out k st' o n said,
  read_loop_t msgs i buf st out k = Ret (st', o, n, said) -> traces said.
Proof.
  induction msgs as [|m msgs IH]; intros i buf st out k st' o n said H; cbn [read_loop_t] in H.
  - assert (said = []) as -> by congruence. constructor.
  - destruct (nth_error buf i) as [c|]; [|discriminate]. destruct (nth_error out k) as [old|]; [|discriminate].
    pose proof (cmsg_traces (km_controllen m) (km_cmsgs m) 0 (rx_dropped st)) as C.
    destruct (cmsg_loop_t _ _ _ _) as [[ts d] heads]. cbn [snd] in C.
    destruct (has _ CAN_ERR_FLAG); [|destruct (has _ CAN_EFF_MASK)].
    + apply bind_ret_inv in H. destruct H as ([[[? ?] ?] more] & R & H). apply IH in R.
      assert (said = (heads ++ more)%list) as -> by congruence. auto.
    + apply bind_ret_inv in H. destruct H as (tmp & _ & H). apply bind_ret_inv in H. destruct H as (f & _ & H).
      apply bind_ret_inv in H. destruct H as ([[[? ?] ?] more] & R & H). apply IH in R.
      match type of H with Ret (_, _, _, ?x) = _ => assert (said = x) as -> by congruence end.
      apply traces_app; [exact C|constructor; auto].
    + apply bind_ret_inv in H. destruct H as ([[[? ?] ?] more] & R & H). apply IH in R.
      assert (said = (heads ++ more)%list) as -> by congruence. auto.
Qed.

Lemma read_traces : forall res errno msgs s out r said, read_t res errno msgs s out = Ret (r, said) -> traces said.
Proof.
  intros res errno msgs s out r said H. unfold read_t in H. destruct (res <=? 0).
  - assert (said = []) as -> by congruence. constructor.
  - cbn zeta in H. apply bind_ret_inv in H. destruct H as ([[[st o] k] sd] & R & H).
    assert (said = sd) as -> by congruence. eapply read_loop_traces; eauto.
Qed.

Lemma group_read_erase : forall res errno msgs g i out c,
  group_read res errno msgs g i out c = let* (g', r, n, o, _) := group_read_t res errno msgs g i out c in Ret (g', r, n, o).
Proof.
  intros. unfold group_read, group_read_t. destruct (_ <=? _); [reflexivity|].
  destruct (nth_error g (Z.to_nat i)) as [s|]; [|reflexivity]. rewrite read_erase. destruct (read_t _ _ _ _ _) as [[r said]|]; reflexivity.
Qed.
Lemma group_read_traces : forall res errno msgs g i out c g' r n o said,
  group_read_t res errno msgs g i out c = Ret (g', r, n, o, said) -> traces said.
Proof.
  intros res errno msgs g i out c g' r n o said H. unfold group_read_t in H. destruct (_ <=? _).
  - assert (said = []) as -> by congruence. constructor.
  - destruct (nth_error g (Z.to_nat i)) as [s|]; [|discriminate]. apply bind_ret_inv in H. destruct H as ([r' sd] & R & H).
    assert (said = sd) as -> by congruence. eapply read_traces; eauto.
Qed.

Lemma read_round_erase : forall n i recv g out,
  read_round n i recv g out = let* (g', batch) := read_round_t n i recv g out in Ret (g', map fst batch).
Proof.
  induction n as [|n IH]; intros i recv g out; [reflexivity|]. cbn [read_round read_round_t].
  destruct (recv i) as [[res errno] msgs]. rewrite group_read_erase.
  destruct (group_read_t _ _ _ _ _ _ _) as [[[[[g1 r] c] f1] said]|]; cbn [bind]; [|reflexivity]. rewrite IH.
  destruct (read_round_t _ _ _ _ _) as [[g2 rest]|]; reflexivity.
Qed.
Lemma read_round_traces : forall n i recv g out g' batch, read_round_t n i recv g out = Ret (g', batch) ->
  Forall (fun x => traces (snd x)) batch.
Proof.
  induction n as [|n IH]; intros i recv g out g' batch H; cbn [read_round_t] in H.
  - assert (batch = []) as -> by congruence. constructor.
  - destruct (recv i) as [[res errno] msgs]. apply bind_ret_inv in H. destruct H as ([[[[g1 r] c] f1] said] & G & H).
    apply bind_ret_inv in H. destruct H as ([g2 rest] & R & H).
    match type of H with Ret (_, ?x) = _ => assert (batch = x) as -> by congruence end.
    constructor; [eapply group_read_traces; eauto|eapply IH; eauto].
Qed.

(** ** Starting *)
Lemma option_traces_traces : forall name o, traces (option_traces name o).
Proof.
  intros. unfold option_traces, traces. cbn zeta. repeat (apply Forall_app; split); destruct (_ <? 0); repeat constructor.
Qed.
Lemma destroy_traces_traces : forall g, traces (destroy_traces g).
Proof. intros g. unfold destroy_traces, traces. apply Forall_map. apply Forall_forall. auto. Qed.
#[export] Hint Resolve option_traces_traces destroy_traces_traces : core.

Lemma open_erase : forall name fd own a o tr, openSocket name fd own a tr = fst (openSocket_t name fd own a o tr).
Proof.
  intros. unfold openSocket, openSocket_t. cbn zeta.
  repeat match goal with |- (if ?b then _ else _) = fst (if ?b then _ else _) => destruct b; [reflexivity|] end. reflexivity.
Qed.
Lemma open_traces : forall name fd own a o tr, traces (snd (openSocket_t name fd own a o tr)).
Proof.
  intros. unfold openSocket_t. cbn zeta.
  repeat match goal with |- traces (snd (if ?b then _ else _)) => destruct b; cbn [snd]; auto end.
Qed.

Lemma create_erase : forall m i name configs num a o w,
  createInterface m i name configs num a w = let* (r, s, w', _) := createInterface_t m i name configs num a o w in Ret (r, s, w').
Proof.
  intros. unfold createInterface, createInterface_t. rewrite (open_erase _ _ _ _ o). destruct (openSocket_t _ _ _ _ _ _) as [[fd tr] out].
  cbn [fst]. destruct (fd <=? 0); [reflexivity|]. destruct (configureFilters _ _ _ _ _) as [[r log]|]; [|reflexivity]. cbn [bind].
  destruct (result_not r); reflexivity.
Qed.
Lemma create_traces : forall m i name configs num a o w r s w' said,
  createInterface_t m i name configs num a o w = Ret (r, s, w', said) ->
  said = snd (openSocket_t name (m_canfd m) (m_own m) a o (w_trace w)).
Proof.
  intros m i name configs num a o w r s w' said H. unfold createInterface_t in H.
  destruct (openSocket_t _ _ _ _ _ _) as [[fd tr] out]. cbn [snd]. destruct (fd <=? 0); [congruence|].
  apply bind_ret_inv in H. destruct H as ([r1 log] & _ & H). destruct (result_not r1); congruence.
Qed.

Lemma start_loop_erase : forall fuel i t m configs num kernel opts acc w,
  start_loop fuel i t m configs num kernel acc w =
  match start_loop_t fuel i t m configs num kernel opts acc w with
  | None => None | Some UB => Some UB | Some (Ret (g, w', _)) => Some (Ret (g, w')) end.
Proof.
  induction fuel as [|fuel IH]; intros; [reflexivity|]. cbn [start_loop start_loop_t]. destruct (_ <? _); [|reflexivity].
  destruct (nth_error _ _) as [name|]; [|reflexivity].
  rewrite (create_erase _ _ _ _ _ _ (opts t (w_trace w))). destruct (createInterface_t _ _ _ _ _ _ _ _) as [[[[r o] w'] said]|]; [|reflexivity].
  cbn [bind]. rewrite (IH _ _ _ _ _ _ opts). destruct (start_loop_t _ _ _ _ _ _ _ _ _ _) as [[[[g w2] more]|]|]; reflexivity.
Qed.
Lemma start_loop_traces : forall fuel i t m configs num kernel opts acc w g w' said,
  start_loop_t fuel i t m configs num kernel opts acc w = Some (Ret (g, w', said)) -> traces said.
Proof.
  induction fuel as [|fuel IH]; intros i t m configs num kernel opts acc w g w' said H; [discriminate|]. cbn [start_loop_t] in H.
  destruct (_ <? _); [|assert (said = []) as -> by congruence; auto].
  destruct (nth_error _ _) as [name|]; [|discriminate].
  destruct (createInterface_t _ _ _ _ _ _ _ _) as [[[[r o] w1] sd]|] eqn:C; [|discriminate]. apply create_traces in C.
  destruct (start_loop_t _ _ _ _ _ _ _ _ _ _) as [[[[g2 w2] more]|]|] eqn:L; try discriminate. apply IH in L.
  assert (said = (sd ++ more)%list) as -> by congruence. apply traces_app; [|auto]. subst sd. apply open_traces.
Qed.

Lemma start_erase : forall fuel m configs num kernel opts out w,
  startInterfaceGroup fuel m configs num kernel out w =
  match startInterfaceGroup_t fuel m configs num kernel opts out w with
  | None => None | Some UB => Some UB | Some (Ret (r, g, w', _)) => Some (Ret (r, g, w')) end.
Proof.
  intros. unfold startInterfaceGroup, startInterfaceGroup_t. rewrite (start_loop_erase _ _ _ _ _ _ _ opts).
  destruct (start_loop_t _ _ _ _ _ _ _ _ _ _) as [[[[[|s g] w'] said]|]|]; reflexivity.
Qed.
Lemma start_traces : forall fuel m configs num kernel opts out w r g w' said,
  startInterfaceGroup_t fuel m configs num kernel opts out w = Some (Ret (r, g, w', said)) -> traces said.
Proof.
  intros fuel m configs num kernel opts out w r g w' said H. unfold startInterfaceGroup_t in H.
  destruct (start_loop_t _ _ _ _ _ _ _ _ _ _) as [[[[[|s l] w1] sd]|]|] eqn:L; try discriminate; apply start_loop_traces in L.
  - assert (said = sd) as -> by congruence. exact L.
  - match type of H with Some (Ret (_, _, _, ?x)) = _ => assert (said = x) as -> by congruence end.
    apply traces_app; [exact L|]. destruct out; cbn [destroy_ptr_traces]; auto.
Qed.

Lemma stop_erase : forall out w, stopInterfaceGroup out w = fst (stopInterfaceGroup_t out w).
Proof. reflexivity. Qed.

(** ** The program without traces *)
Lemma start_test_off : forall fuel lb m kernel opts send w,
  start_test_c fuel lb m kernel send w =
  match start_test_t fuel lb m kernel opts send w with
  | None => None | Some UB => Some UB | Some (Ret (g, lb', s, w', out)) => Some (Ret (g, lb', s, w', render false out)) end.
Proof.
  intros. unfold start_test_c, start_test_t. destruct (0 <? _); [reflexivity|]. destruct (negb _); [reflexivity|].
  rewrite (start_erase _ _ _ _ _ opts).
  destruct (startInterfaceGroup_t _ _ _ _ _ _ _ _) as [[[[[r out] w1] said]|]|] eqn:S; try reflexivity. apply start_traces in S.
  destruct (isFailure r); [now rewrite (traces_off _ S)|]. destruct out as [g|]; [|reflexivity].
  destruct (start_writes_c _ _ _ _ _) as [[[[[g' f'] ok] sents] text]|]; [|reflexivity].
  destruct (_ && _); rewrite !render_app, (traces_off _ S); cbn [app]; rewrite !render_cons, ?(traces_off _ (destroy_traces_traces _));
    cbn [render_piece]; rewrite ?append_nil_r; reflexivity.
Qed.

Lemma evaluate_round_off : forall g batch i found, Forall (fun x => traces (snd x)) batch ->
  evaluate_round_c g i (map fst batch) found =
  let* (f, out) := evaluate_round_t true g i batch found in Ret (f, render false out).
Proof.
  intros g. induction batch as [|[[r fs] said] batch IH]; intros i found T; [reflexivity|]. inversion T; subst. cbn [snd] in *.
  cbn [map fst evaluate_round_c evaluate_round_t andb].
  match goal with |- bind ?x _ = _ => destruct x as [[f t]|]; cbn [bind]; [|reflexivity] end. rewrite IH by auto.
  destruct (evaluate_round_t _ _ _ _ _) as [[f2 more]|]; cbn [bind]; [|reflexivity].
  rewrite render_app, (traces_off said), render_cons by auto. reflexivity.
Qed.
Lemma evaluate_round_closed : forall g batch i found, Forall (fun x => traces (snd x)) batch ->
  exists out, evaluate_round_t false g i batch found = Ret (found, out) /\ render false out = "".
Proof.
  intros g. induction batch as [|[[r fs] said] batch IH]; intros i found T; [exists []; auto|]. inversion T; subst. cbn [snd] in *.
  cbn [evaluate_round_t andb bind]. destruct (IH (S i) found) as (out & E & R); [auto|]. rewrite E. cbn [bind]. eexists. split; [reflexivity|].
  rewrite render_app, render_cons, (traces_off said), R by auto. reflexivity.
Qed.

Lemma run_off : forall P timeout continuous started ticks last g lb,
  run_console P timeout continuous started last ticks g lb =
  let* (r, out) := run_t P timeout continuous started last ticks g lb in Ret (r, render false out).
Proof.
  intros P timeout continuous started. induction ticks as [|k rest IH]; intros last g lb; cbn [run_console run_t]; [reflexivity|].
  destruct (timed_out _ _ _ _) as [[|]|]; cbn [bind]; [reflexivity| |reflexivity].
  destruct (select _ _ _ _ _) as [sel|]; cbn [bind]; [|reflexivity].
  destruct (sarith _ _ _) as [period|]; cbn [bind]; [|reflexivity].
  rewrite read_round_erase. destruct (read_round_t _ _ _ _ _) as [[g' batch]|] eqn:RR; cbn [bind]; [|reflexivity].
  apply read_round_traces in RR.
  assert (EV : (if result_not (lb_result lb) then evaluate_round_c g' 0 (map fst batch) (lb_found lb) else Ret (lb_found lb, "")) =
    let* (f, out) := evaluate_round_t (result_not (lb_result lb)) g' 0 batch (lb_found lb) in Ret (f, render false out)).
  { destruct (result_not (lb_result lb)); [now apply evaluate_round_off|].
    destruct (evaluate_round_closed g' batch 0 (lb_found lb) RR) as (out & -> & R). cbn [bind]. now rewrite R. }
  rewrite EV. destruct (evaluate_round_t _ _ _ _ _) as [[f s]|]; cbn [bind]; [|reflexivity].
  destruct (isComplete g' f).
  - destruct (negb continuous); cbn [bind].
    + rewrite render_cons, render_app. reflexivity.
    + rewrite IH. destruct (run_t _ _ _ _ _ _ _ _) as [[r more]|]; cbn [bind]; [|reflexivity].
      rewrite render_cons, render_app. reflexivity.
  - rewrite IH. destruct (run_t _ _ _ _ _ _ _ _) as [[r more]|]; cbn [bind]; [|reflexivity].
    rewrite render_cons, render_app. reflexivity.
Qed.

Lemma main_off : forall P fuel args kernel opts send started last ticks w,
  main_c P fuel args kernel send started last ticks w =
  match main_t P fuel args kernel opts send started last ticks w with
  | None => None | Some UB => Some UB | Some (Ret (c, w', out)) => Some (Ret (Ending c w' (render false out))) end.
Proof.
  intros. unfold main_c, main_t. destruct (parse_args fuel args) as [[[r ns]|]|]; try reflexivity.
  destruct (negb _); [reflexivity|]. rewrite (start_test_off _ _ _ _ opts).
  destruct (start_test_t _ _ _ _ _ _ _) as [[[[[[[g|] lb] s] w1] out]|]|]; try reflexivity.
  rewrite run_off. destruct (run_t _ _ _ _ _ _ _ _) as [[[passed|] more]|]; cbn [bind]; try reflexivity.
  cbn [stopInterfaceGroup stopInterfaceGroup_t destroy_ptr_traces]. rewrite !render_app, (traces_off (destroy_traces g)) by auto.
  reflexivity.
Qed.

(** ** Lines *)
Lemma is_trace_last : forall s c, is_trace (s ++ String c "") = Ascii.eqb c carriage_return.
Proof.
  induction s as [|x s IH]; intros c; [reflexivity|]. change (String x s ++ String c "") with (String x (s ++ String c "")).
  specialize (IH c). destruct (s ++ String c "") as [|y t] eqn:E; [destruct s; discriminate|]. exact IH.
Qed.
Lemma is_trace_line : forall src msg, is_trace (trace_line src msg) = true.
Proof.
  intros. unfold trace_line. rewrite <- !append_assoc. rewrite is_trace_last. reflexivity.
Qed.
Lemma not_trace : forall s, ~ In carriage_return (list_ascii_of_string s) -> is_trace s = false.
Proof.
  induction s as [|c s IH]; intros N; [reflexivity|]. cbn [list_ascii_of_string In] in N.
  destruct s as [|y t]; [cbn [is_trace]; destruct (Ascii.eqb_spec c carriage_return); tauto|]. apply IH. tauto.
Qed.

Definition no_cr (s : string) : Prop := ~ In carriage_return (list_ascii_of_string s).
Lemma no_cr_app : forall a b, no_cr (a ++ b) <-> no_cr a /\ no_cr b.
Proof. intros. unfold no_cr. rewrite list_app, in_app_iff. tauto. Qed.
Fixpoint no_crb (s : string) : bool :=
  match s with EmptyString => true | String c t => negb (Ascii.eqb c carriage_return) && no_crb t end.
Lemma no_crb_true : forall s, no_crb s = true -> no_cr s.
Proof.
  induction s as [|c s IH]; intros H; [intros []|]. cbn [no_crb] in H. apply andb_true_iff in H. destruct H as [A B].
  unfold no_cr. cbn [list_ascii_of_string In]. intros [X|X]; [subst c; discriminate|exact (IH B X)].
Qed.
Lemma uint_no_cr : forall d, no_cr (DecimalString.NilEmpty.string_of_uint d).
Proof.
  unfold no_cr. induction d; cbn [DecimalString.NilEmpty.string_of_uint list_ascii_of_string In]; auto; (intros [H|H]; [discriminate H|auto]).
Qed.
Lemma number_no_cr : forall z, no_cr (number z).
Proof.
  intros z. unfold number, DecimalString.NilZero.string_of_int. destruct (Z.to_int z) as [d|d].
  - unfold DecimalString.NilZero.string_of_uint. destruct d; try apply uint_no_cr. intros [H|[]]; discriminate.
  - assert (H : forall s, no_cr s -> no_cr (String "-" s)).
    { intros s O. unfold no_cr in *. cbn [list_ascii_of_string In]. intros [X|X]; [discriminate|auto]. }
    apply H. unfold DecimalString.NilZero.string_of_uint. destruct d; try apply uint_no_cr. intros [X|[]]; discriminate.
Qed.

Lemma plain_app : forall a b, plain_word (a ++ b) <-> plain_word a /\ plain_word b.
Proof. intros. unfold plain_word. rewrite one_line_app. change (~ In carriage_return ?l) with (~ In carriage_return l).
  pose proof (no_cr_app a b) as N. unfold no_cr in N. tauto. Qed.
Lemma plain_literal : forall s, one_lineb s = true -> no_crb s = true -> plain_word s.
Proof. intros s A B. split; [now apply one_lineb_true|now apply no_crb_true]. Qed.
Lemma plain_number : forall z, plain_word (number z).
Proof. intros. split; [apply number_one_line|apply number_no_cr]. Qed.
Ltac plain_tac := repeat (apply plain_app; split); try (apply plain_literal; reflexivity); try apply plain_number; auto.

(** Text made of whole lines without carriage returns. *)
Definition plain_text (s : string) : Prop := exists ls, is_text s ls /\ Forall plain_word ls.
Lemma plain_text_nil : plain_text "".
Proof. exists []. split; [apply is_text_nil|constructor]. Qed.
Lemma plain_text_app : forall a b, plain_text a -> plain_text b -> plain_text (a ++ b).
Proof.
  intros a b (la & A & PA) (lb & B & PB). exists (la ++ lb)%list. split; [now apply is_text_app|now apply Forall_app].
Qed.
Lemma plain_text_line : forall l, plain_word l -> plain_text (l ++ endl).
Proof. intros l P. exists [l]. split; [apply is_text_line; apply P|auto]. Qed.

Definition good (p : piece) : Prop :=
  match p with Print s => plain_text s | Trace src msg => plain_word src /\ plain_word msg end.

(** The lines of the traces. *)
Fixpoint trace_lines (out : output) : list string :=
  match out with [] => [] | Print _ :: t => trace_lines t | Trace src msg :: t => trace_line src msg :: trace_lines t end.
Lemma trace_lines_app : forall a b, trace_lines (a ++ b)%list = (trace_lines a ++ trace_lines b)%list.
Proof. induction a as [|[s|src msg] a IH]; intros; cbn [trace_lines app]; [reflexivity|apply IH|now rewrite IH]. Qed.

Lemma filter_all : forall A (f : A -> bool) l, Forall (fun x => f x = true) l -> List.filter f l = l.
Proof. induction 1 as [|x l H _ IH]; [reflexivity|]. cbn [List.filter]. now rewrite H, IH. Qed.
Lemma filter_none : forall A (f : A -> bool) l, Forall (fun x => f x = false) l -> List.filter f l = [].
Proof. induction 1 as [|x l H _ IH]; [reflexivity|]. cbn [List.filter]. now rewrite H, IH. Qed.

Lemma good_lines : forall out, Forall good out ->
  exists ls, is_text (render true out) ls /\ is_text (render false out) (List.filter (fun l => negb (is_trace l)) ls) /\
  List.filter is_trace ls = trace_lines out.
Proof.
  induction 1 as [|p out G _ (ls & A & B & C)]; [exists []; split; [apply is_text_nil|split; [apply is_text_nil|reflexivity]]|].
  rewrite !render_cons. destruct p as [s|src msg]; cbn [good] in G; cbn [render_piece trace_lines].
  - destruct G as (l & T & P). exists (l ++ ls)%list. rewrite !filter_app. rewrite (filter_all _ _ l), (filter_none _ is_trace l).
    + split; [now apply is_text_app|]. split; [now apply is_text_app|exact C].
    + eapply Forall_impl; [|exact P]. intros x [_ N]. now apply not_trace.
    + eapply Forall_impl; [|exact P]. intros x [_ N]. cbn. now rewrite not_trace.
  - exists (trace_line src msg :: ls). cbn [List.filter]. rewrite is_trace_line. cbn [negb]. split; [|split; [exact B|now rewrite C]].
    change (String (ascii_of_nat 13) (String (ascii_of_nat 10) "")) with (String carriage_return "" ++ endl). rewrite <- !append_assoc.
    rewrite !append_assoc. replace (src ++ ": " ++ msg ++ String carriage_return "" ++ endl ++ render true out)
      with (trace_line src msg ++ endl ++ render true out) by (unfold trace_line; now rewrite !append_assoc).
    apply is_text_cons; [|exact A]. unfold trace_line. destruct G as [[G1 _] [G2 _]]. one_line_tac.
Qed.

Lemma lines_app : forall a b, Forall good a -> Forall good b ->
  lines (render true (a ++ b)%list) = (lines (render true a) ++ lines (render true b))%list.
Proof.
  intros a b A B. destruct (good_lines a A) as (la & X & _). destruct (good_lines b B) as (lb & Y & _). rewrite render_app.
  rewrite (is_text_lines _ _ X), (is_text_lines _ _ Y). apply is_text_lines. now apply is_text_app.
Qed.
Lemma lines_print : forall s, plain_text s -> untraced (lines (render true [Print s])).
Proof.
  intros s (ls & X & P). rewrite render_cons, render_nil, append_nil_r. cbn [render_piece]. rewrite (is_text_lines _ _ X).
  eapply Forall_impl; [|exact P]. intros x [_ N]. now apply not_trace.
Qed.
Lemma lines_one : forall l, plain_word l -> lines (render true [Print (l ++ endl)]) = [l].
Proof.
  intros l P. rewrite render_cons, render_nil, append_nil_r. cbn [render_piece]. apply is_text_lines. apply is_text_line. apply P.
Qed.

Lemma c_str_plain : forall s, plain_word s -> plain_word (c_str s).
Proof.
  unfold plain_word, one_line. induction s as [|c s IH]; intros [A B]; [auto|]. cbn [c_str]. destruct (Ascii.eqb c zero); [cbn; auto|].
  cbn [list_ascii_of_string In] in *. destruct IH as [X Y]; [tauto|]. tauto.
Qed.
Lemma c_str_id : forall s, no_nul s -> c_str s = s.
Proof.
  unfold no_nul. induction s as [|c s IH]; intros N; [reflexivity|]. cbn [c_str]. cbn [list_ascii_of_string In] in N.
  destruct (Ascii.eqb_spec c zero); [tauto|]. rewrite IH; tauto.
Qed.

Lemma app_good : forall a b, Forall good a -> Forall good b -> Forall good (a ++ b)%list.
Proof. intros. now apply Forall_app. Qed.
#[export] Hint Resolve app_good : core.

Lemma cmsg_good : forall size cs ts d, Forall good (snd (cmsg_loop_t size cs ts d)).
Proof.
  induction cs as [|c cs IH]; intros ts d; [constructor|]. cbn [cmsg_loop_t].
  destruct (_ =? SOL_SOCKET); [destruct (_ && _); [apply IH|destruct (_ && _); [apply IH|]]|];
    specialize (IH ts d); destruct (cmsg_loop_t _ _ _ _) as [[? ?] ?]; constructor; auto; cbn [good]; split; plain_tac.
Qed.
Lemma read_loop_good : forall msgs i buf st out k st' o n said,
  read_loop_t msgs i buf st out k = Ret (st', o, n, said) -> Forall good said.
Proof.
  induction msgs as [|m msgs IH]; intros i buf st out k st' o n said H; cbn [read_loop_t] in H.
  - assert (said = []) as -> by congruence. constructor.
  - destruct (nth_error buf i) as [c|]; [|discriminate]. destruct (nth_error out k) as [old|]; [|discriminate].
    pose proof (cmsg_good (km_controllen m) (km_cmsgs m) 0 (rx_dropped st)) as C.
    destruct (cmsg_loop_t _ _ _ _) as [[ts d] heads]. cbn [snd] in C.
    destruct (has _ CAN_ERR_FLAG); [|destruct (has _ CAN_EFF_MASK)].
    + apply bind_ret_inv in H. destruct H as ([[[? ?] ?] more] & R & H). apply IH in R.
      assert (said = (heads ++ more)%list) as -> by congruence. auto.
    + apply bind_ret_inv in H. destruct H as (tmp & _ & H). apply bind_ret_inv in H. destruct H as (f & _ & H).
      apply bind_ret_inv in H. destruct H as ([[[? ?] ?] more] & R & H). apply IH in R.
      match type of H with Ret (_, _, _, ?x) = _ => assert (said = x) as -> by congruence end.
      apply app_good; [exact C|constructor; auto]. split; plain_tac.
    + apply bind_ret_inv in H. destruct H as ([[[? ?] ?] more] & R & H). apply IH in R.
      assert (said = (heads ++ more)%list) as -> by congruence. auto.
Qed.
Lemma read_good : forall res errno msgs s out r said, read_t res errno msgs s out = Ret (r, said) -> Forall good said.
Proof.
  intros res errno msgs s out r said H. unfold read_t in H. destruct (res <=? 0).
  - assert (said = []) as -> by congruence. constructor.
  - cbn zeta in H. apply bind_ret_inv in H. destruct H as ([[[st o] k] sd] & R & H).
    assert (said = sd) as -> by congruence. eapply read_loop_good; eauto.
Qed.
Lemma read_round_good : forall n i recv g out g' batch, read_round_t n i recv g out = Ret (g', batch) ->
  Forall (fun x => Forall good (snd x)) batch.
Proof.
  induction n as [|n IH]; intros i recv g out g' batch H; cbn [read_round_t] in H.
  - assert (batch = []) as -> by congruence. constructor.
  - destruct (recv i) as [[res errno] msgs]. apply bind_ret_inv in H. destruct H as ([[[[g1 r] c] f1] said] & G & H).
    apply bind_ret_inv in H. destruct H as ([g2 rest] & R & H).
    match type of H with Ret (_, ?x) = _ => assert (batch = x) as -> by congruence end.
    constructor; [|eapply IH; eauto]. cbn [snd]. unfold group_read_t in G. destruct (_ <=? _).
    + assert (said = []) as -> by congruence. constructor.
    + destruct (nth_error g _) as [s|]; [|discriminate]. apply bind_ret_inv in G. destruct G as ([r' sd] & RD & G).
      assert (said = sd) as -> by congruence. eapply read_good; eauto.
Qed.

Lemma option_traces_good : forall name o, plain_word name -> Forall good (option_traces name o).
Proof.
  intros name o P. apply c_str_plain in P. unfold option_traces. cbn zeta.
  repeat (apply Forall_app; split); destruct (_ <? 0); constructor; auto; split; plain_tac.
Qed.
Lemma destroy_traces_good : forall g, Forall good (destroy_traces g).
Proof. intros g. unfold destroy_traces. apply Forall_map. apply Forall_forall. intros. split; plain_tac. Qed.
#[export] Hint Resolve option_traces_good destroy_traces_good : core.
Lemma open_good : forall name fd own a o tr, plain_word name -> Forall good (snd (openSocket_t name fd own a o tr)).
Proof.
  intros. unfold openSocket_t. cbn zeta.
  repeat match goal with |- Forall good (snd (if ?b then _ else _)) => destruct b; cbn [snd]; auto end.
Qed.
Lemma start_loop_good : forall fuel i t m configs num kernel opts acc w g w' said, Forall plain_word (m_required m) ->
  start_loop_t fuel i t m configs num kernel opts acc w = Some (Ret (g, w', said)) -> Forall good said.
Proof.
  induction fuel as [|fuel IH]; intros i t m configs num kernel opts acc w g w' said P H; [discriminate|]. cbn [start_loop_t] in H.
  destruct (_ <? _); [|assert (said = []) as -> by congruence; auto].
  destruct (nth_error _ _) as [name|] eqn:N; [|discriminate].
  destruct (createInterface_t _ _ _ _ _ _ _ _) as [[[[r o] w1] sd]|] eqn:C; [|discriminate]. apply create_traces in C.
  destruct (start_loop_t _ _ _ _ _ _ _ _ _ _) as [[[[g2 w2] more]|]|] eqn:L; try discriminate. apply IH in L; [|auto].
  assert (said = (sd ++ more)%list) as -> by congruence. apply app_good; [|auto]. subst sd. apply open_good.
  rewrite Forall_forall in P. apply P. eapply nth_error_In; eauto.
Qed.
Lemma start_good : forall fuel m configs num kernel opts out w r g w' said, Forall plain_word (m_required m) ->
  startInterfaceGroup_t fuel m configs num kernel opts out w = Some (Ret (r, g, w', said)) -> Forall good said.
Proof.
  intros fuel m configs num kernel opts out w r g w' said P H. unfold startInterfaceGroup_t in H.
  destruct (start_loop_t _ _ _ _ _ _ _ _ _ _) as [[[[[|s l] w1] sd]|]|] eqn:L; try discriminate; apply start_loop_good in L; auto.
  - assert (said = sd) as -> by congruence. exact L.
  - match type of H with Some (Ret (_, _, _, ?x)) = _ => assert (said = x) as -> by congruence end.
    apply app_good; [exact L|]. destruct out; cbn [destroy_ptr_traces]; auto.
Qed.

(** Names of a group. *)
Definition plainly (g : group) : Prop := Forall (fun s => plain_word (getInterfaceName s)) g.
Lemma plainly_names : forall g g', map getInterfaceName g' = map getInterfaceName g -> plainly g -> plainly g'.
Proof. unfold plainly. intros g g' E N. rewrite <- (Forall_map getInterfaceName plain_word) in *. now rewrite E. Qed.
Lemma plainly_name : forall g i, plainly g -> plain_word (group_getInterfaceName g i).
Proof.
  intros g i N. unfold group_getInterfaceName. destruct (_ <=? _); [plain_tac|].
  destruct (nth_error g (Z.to_nat i)) as [s|] eqn:E; [|plain_tac]. unfold plainly in N. rewrite Forall_forall in N. apply N.
  eapply nth_error_In; eauto.
Qed.
Lemma start_writes_plain : forall n i send g found g' found' ok sents out, plainly g ->
  start_writes_c n i send g found = Ret (g', found', ok, sents, out) -> plain_text out /\ map getInterfaceName g' = map getInterfaceName g.
Proof.
  induction n as [|n IH]; intros i send g found g' found' ok sents out N H; cbn [start_writes_c] in H.
  - assert (out = "" /\ g' = g) as (-> & ->) by (injection H; intros; subst; auto). split; [apply plain_text_nil|reflexivity].
  - apply bind_ret_inv in H. destruct H as ([[[g1 r] c] sent] & W & H). pose proof (group_write_names _ _ _ _ _ _ _ _ _ _ W) as M.
    assert (N1 : plainly g1) by (eapply plainly_names; eauto).
    pose proof (plainly_name g1 (Z.of_nat i) N1) as O. set (nm := group_getInterfaceName g1 (Z.of_nat i)) in *. clearbody nm.
    destruct (negb (result_not r)).
    + apply bind_ret_inv in H. destruct H as ([[[[g2 f2] ok2] s2] out2] & T & H).
      destruct (IH _ _ _ _ _ _ _ _ _ N1 T) as [TX M2].
      assert (g' = g2) as -> by (injection H; intros; subst; auto).
      assert (out = ("Successfully enqueued " ++ number c ++ " frame(s) on interface " ++ nm) ++ endl ++ out2) as ->
        by (rewrite !append_assoc; injection H; intros; subst; reflexivity).
      split; [|congruence]. rewrite <- append_assoc. apply plain_text_app; [apply plain_text_line; plain_tac|exact TX].
    + assert (g' = g1) as -> by (injection H; intros; subst; auto).
      assert (out = not_enqueued nm ++ endl) as -> by (unfold not_enqueued; rewrite append_assoc; injection H; intros; subst; reflexivity).
      split; [|exact M]. apply plain_text_line. unfold not_enqueued. plain_tac.
Qed.

Lemma start_loop_plainly : forall fuel i t m configs num kernel acc w g w', Forall plain_word (m_required m) -> plainly acc ->
  start_loop fuel i t m configs num kernel acc w = Some (Ret (g, w')) -> plainly g.
Proof.
  induction fuel as [|fuel IH]; intros i t m configs num kernel acc w g w' N A H; cbn [start_loop] in H; [discriminate|].
  destruct (i <? _); [|congruence]. destruct (nth_error (m_required m) (Z.to_nat i)) as [name|] eqn:E; [|discriminate].
  destruct (createInterface _ _ _ _ _ _ _) as [[[r o] w1]|] eqn:C; [|discriminate].
  assert (O : plain_word name) by (rewrite Forall_forall in N; apply N; eapply nth_error_In; eauto).
  apply IH in H; auto. destruct o as [s|]; auto. destruct (negb (result_not r)); auto. apply Forall_app. split; [exact A|].
  constructor; [|constructor]. unfold createInterface in C. destruct (openSocket _ _ _ _ _) as [fd tr]. destruct (fd <=? 0); [congruence|].
  apply bind_ret_inv in C. destruct C as ([r1 log] & _ & C). destruct (result_not r1); [congruence|].
  assert (s = iface_make i name fd) as -> by congruence. exact O.
Qed.

Lemma start_plainly : forall fuel m configs num kernel opts w r g w' said, Forall plain_word (m_required m) ->
  startInterfaceGroup_t fuel m configs num kernel opts None w = Some (Ret (r, Some g, w', said)) -> plainly g.
Proof.
  intros fuel m configs num kernel opts w r g w' said P H. pose proof (start_erase fuel m configs num kernel opts None w) as E.
  rewrite H in E. unfold startInterfaceGroup in E.
  destruct (start_loop _ _ _ _ _ _ _ _ _) as [[[[|s l] w1]|]|] eqn:L; try discriminate.
  assert (g = s :: l) as -> by (injection E; intros; subst; reflexivity).
  eapply start_loop_plainly; [exact P| |exact L]. constructor.
Qed.

Lemma start_test_good : forall fuel lb m kernel opts send w og lb' s w' out, Forall plain_word (m_required m) ->
  start_test_t fuel lb m kernel opts send w = Some (Ret (og, lb', s, w', out)) ->
  Forall good out /\ match og with Some g => plainly g | None => True end.
Proof.
  intros fuel lb m kernel opts send w og lb' s w' out P H. unfold start_test_t in H.
  destruct (0 <? _). { assert (out = [] /\ og = None) as (-> & ->) by (injection H; intros; subst; auto). auto. }
  destruct (negb _). { match type of H with Some (Ret (_, _, _, _, ?x)) = _ => assert (out = x /\ og = None) as (-> & ->) by (injection H; intros; subst; auto) end.
    split; [|auto]. constructor; [|auto]. apply plain_text_line. plain_tac. }
  destruct (startInterfaceGroup_t _ _ _ _ _ _ _ _) as [[[[[r og1] w1] said]|]|] eqn:S; try discriminate.
  pose proof (start_good _ _ _ _ _ _ _ _ _ _ _ _ P S) as G.
  destruct (isFailure r).
  { assert (out = said /\ og = og1) as (-> & ->) by (injection H; intros; subst; auto). split; [exact G|].
    destruct og1 as [g|]; [|auto]. eapply start_plainly; eauto. }
  destruct og1 as [g|]; [|discriminate]. pose proof (start_plainly _ _ _ _ _ _ _ _ _ _ _ P S) as N.
  destruct (start_writes_c _ _ _ _ _) as [[[[[g' f'] ok] sents] text]|] eqn:W; [|discriminate].
  destruct (start_writes_plain _ _ _ _ _ _ _ _ _ _ N W) as [TX M].
  assert (OP : Forall good [Print ("Opened " ++ number (getInterfaceCount g) ++ " interface(s)." ++ endl); Print text]).
  { constructor; [|constructor; auto]. cbn [good]. rewrite <- !append_assoc. apply plain_text_line. rewrite !append_assoc. plain_tac. }
  destruct (_ && _).
  - match type of H with Some (Ret (_, _, _, _, ?x)) = _ => assert (out = x /\ og = Some g') as (-> & ->) by (injection H; intros; subst; auto) end.
    split; [auto|]. eapply plainly_names; eauto.
  - match type of H with Some (Ret (_, _, _, _, ?x)) = _ => assert (out = x /\ og = None) as (-> & ->) by (injection H; intros; subst; auto) end.
    split; auto.
Qed.

Lemma evaluate_plain : forall g i fs found f out, plainly g -> evaluate_c g i fs found = Ret (f, out) -> plain_text out.
Proof.
  intros g i fs found f out N H. unfold evaluate_c in H. cbn zeta in H.
  pose proof (plainly_name g (Z.of_nat i) N) as O. set (nm := group_getInterfaceName g (Z.of_nat i)) in *. clearbody nm.
  assert (SA : plain_text ("Evaluating " ++ number (Z.of_nat (List.length fs)) ++ " frame(s)..." ++ endl)).
  { rewrite <- !append_assoc. apply plain_text_line. rewrite !append_assoc. plain_tac. }
  destruct (nth_error found i) as [v|]; [|discriminate]. destruct (v =? 3).
  - match type of H with Ret (_, ?x) = _ => assert (out = x) as -> by congruence end. exact SA.
  - apply bind_ret_inv in H. destruct H as (v' & _ & H).
    match type of H with Ret (_, ?x) = _ => assert (out = x) as -> by congruence end. apply plain_text_app; [exact SA|].
    destruct (v' =? 3); [|apply plain_text_nil]. rewrite <- append_assoc. apply plain_text_line. plain_tac.
Qed.
Lemma evaluate_round_good : forall open g, plainly g -> forall batch i found f out, Forall (fun x => Forall good (snd x)) batch ->
  evaluate_round_t open g i batch found = Ret (f, out) -> Forall good out.
Proof.
  intros open g N. induction batch as [|[[r fs] said] batch IH]; intros i found f out G H; cbn [evaluate_round_t] in H.
  - assert (out = []) as -> by congruence. constructor.
  - inversion G; subst. apply bind_ret_inv in H. destruct H as ([f1 text] & E & H). apply bind_ret_inv in H. destruct H as ([f2 more] & R & H).
    apply IH in R; [|auto]. assert (out = (said ++ Print text :: more)%list) as -> by congruence.
    apply app_good; [assumption|]. constructor; [|exact R]. cbn [good].
    destruct (open && _); [eapply evaluate_plain; eauto|]. assert (text = "") as -> by congruence. apply plain_text_nil.
Qed.
Lemma stats_plain : forall (due : bool) g, plainly g ->
  plain_text (if due then String.concat "" (map (fun x => print_stats (fst x) (snd x)) (print_all g)) else "").
Proof.
  intros [|] g N; [|apply plain_text_nil]. unfold print_all.
  assert (NF : plainly (firstn (Z.to_nat (getInterfaceCount g)) g)).
  { unfold plainly in *. rewrite <- (firstn_skipn (Z.to_nat (getInterfaceCount g)) g) in N. apply Forall_app in N. tauto. }
  revert NF. generalize (firstn (Z.to_nat (getInterfaceCount g)) g). clear g N. intros l. induction 1 as [|s l P _ IH]; [apply plain_text_nil|].
  cbn [map]. rewrite concat_cons. apply plain_text_app; [|exact IH]. cbn [fst snd]. unfold print_stats. rewrite <- !append_assoc.
  apply plain_text_line. rewrite !append_assoc. plain_tac.
Qed.

Lemma read_round_t_names : forall n i recv g out g' batch, read_round_t n i recv g out = Ret (g', batch) ->
  map getInterfaceName g' = map getInterfaceName g.
Proof.
  intros n i recv g out g' batch H. pose proof (read_round_erase n i recv g out) as E. rewrite H in E. eapply read_round_names. exact E.
Qed.

Lemma run_good : forall P timeout continuous started ticks last g lb r out, plainly g ->
  run_t P timeout continuous started last ticks g lb = Ret (r, out) -> Forall good out.
Proof.
  intros P timeout continuous started. induction ticks as [|k rest IH]; intros last g lb r out N H; cbn [run_t] in H.
  - assert (out = []) as -> by congruence. constructor.
  - destruct (timed_out _ _ _ _) as [[|]|]; cbn [bind] in H; [| |discriminate].
    { match type of H with Ret (_, ?x) = _ => assert (out = x) as -> by congruence end. constructor; [|auto]. cbn [good].
      rewrite <- append_assoc. apply plain_text_line. plain_tac. }
    destruct (select _ _ _ _ _) as [sel|]; cbn [bind] in H; [|discriminate].
    destruct (sarith _ _ _) as [period|]; cbn [bind] in H; [|discriminate].
    apply bind_ret_inv in H. destruct H as ([g' batch] & RR & H). apply bind_ret_inv in H. destruct H as ([f s] & EV & H).
    apply bind_ret_inv in H. destruct H as ([r1 more] & MO & H).
    pose proof (read_round_t_names _ _ _ _ _ _ _ RR) as M. assert (N' : plainly g') by (eapply plainly_names; eauto).
    apply read_round_good in RR. eapply evaluate_round_good in EV; [|exact N'|exact RR].
    match type of H with Ret (_, ?x) = _ => assert (out = x) as -> by congruence end.
    constructor; [exact (stats_plain _ g N)|]. apply app_good; [exact EV|].
    destruct (isComplete g' f); [destruct (negb continuous)|]; [assert (more = []) as -> by congruence; auto|eapply IH; eauto|eapply IH; eauto].
Qed.

(** ** Arguments *)
Definition lacks (x : ascii) (s : string) : Prop := ~ In x (list_ascii_of_string s).
Lemma split_eq_lacks : forall x s n v, lacks x s -> split_eq s = (n, Some v) -> lacks x v.
Proof.
  unfold lacks. intros x. induction s as [|c s IH]; intros n v O H; cbn [split_eq] in H; [discriminate|]. cbn [list_ascii_of_string In] in O.
  destruct (Ascii.eqb c "="); [assert (s = v) as <- by congruence; tauto|].
  destruct (split_eq s) as [n' v'] eqn:E. assert (v' = Some v) as -> by congruence. eapply IH; [|reflexivity]. tauto.
Qed.

Lemma getopt_lacks : forall x args table i v optarg rest, Forall (lacks x) args ->
  getopt_long args table = (Option_ i v optarg, rest) ->
  Forall (lacks x) rest /\ (forall a, optarg = Some a -> lacks x a).
Proof.
  intros x. induction args as [|w args IH]; intros table i v optarg rest F H; cbn [getopt_long] in H; [discriminate|].
  inversion F as [|? ? F1 F2]; subst. destruct w as [|c0 [|c1 body]]; [eauto|eauto|].
  assert (OB : lacks x body) by (unfold lacks in *; cbn [list_ascii_of_string In] in F1; tauto).
  destruct (negb _); [eauto|]. destruct (Ascii.eqb c1 "-").
  - destruct (String.eqb body ""); [discriminate|]. destruct (split_eq body) as [nm val] eqn:SE.
    destruct (find_long nm table) as [[j o]|]; [|discriminate]. destruct val as [u|].
    + destruct (_ =? 0); [discriminate|]. assert (optarg = Some u /\ rest = args) as [-> ->] by (split; congruence).
      split; [exact F2|]. intros a A. assert (u = a) as <- by congruence. eapply split_eq_lacks; eauto.
    + destruct (_ =? required_argument).
      * destruct args as [|u args']; [discriminate|]. assert (optarg = Some u /\ rest = args') as [-> ->] by (split; congruence).
        inversion F2; subst. split; [auto|]. intros a A. congruence.
      * assert (optarg = None /\ rest = args) as [-> ->] by (split; congruence). split; [exact F2|discriminate].
  - destruct (Ascii.eqb c1 "d"); [|discriminate]. destruct (String.eqb body "").
    + destruct args as [|u args']; [discriminate|]. assert (optarg = Some u /\ rest = args') as [-> ->] by (split; congruence).
      inversion F2; subst. split; [auto|]. intros a A. congruence.
    + assert (optarg = Some body /\ rest = args) as [-> ->] by (split; congruence). split; [exact F2|]. intros a A. congruence.
Qed.

Lemma parse_lacks : forall x fuel args table ns r ns', Forall (lacks x) args -> Forall (lacks x) (ns_devices ns) ->
  parse_loop fuel args table ns = Some (Ret (r, ns')) -> Forall (lacks x) (ns_devices ns').
Proof.
  intros x. induction fuel as [|fuel IH]; intros args table ns r ns' F D H; cbn [parse_loop] in H; [discriminate|].
  destruct (getopt_long args table) as [[|i v optarg|] rest] eqn:G.
  - assert (ns = ns') as <- by congruence. exact D.
  - destruct (getopt_lacks x _ _ _ _ _ _ F G) as [FR FA].
    destruct (Ascii.eqb v "e" || Ascii.eqb v "c"); [eapply IH; [exact FR| |exact H]; exact D|].
    destruct (Ascii.eqb v "d"); [|assert (ns = ns') as <- by congruence; exact D].
    destruct optarg as [a|]; [|discriminate]. eapply IH; [exact FR| |exact H]. cbn [ns_devices]. apply Forall_app. split; [exact D|].
    constructor; [auto|constructor].
  - assert (ns = ns') as <- by congruence. exact D.
Qed.

Lemma parse_plain : forall fuel args r ns, Forall plain_word args -> parse_args fuel args = Some (Ret (r, ns)) ->
  Forall plain_word (ns_devices ns).
Proof.
  intros fuel args r ns F H. unfold parse_args in H.
  assert (A : Forall (lacks newline) (ns_devices ns)).
  { eapply parse_lacks; [| |exact H]; [|constructor]. eapply Forall_impl; [|exact F]. intros x P. apply P. }
  assert (B : Forall (lacks carriage_return) (ns_devices ns)).
  { eapply parse_lacks; [| |exact H]; [|constructor]. eapply Forall_impl; [|exact F]. intros x P. apply P. }
  rewrite Forall_forall in *. intros x I. split; [exact (A x I)|exact (B x I)].
Qed.

(** ** The program *)
Lemma usage_plain : plain_text usage.
Proof.
  exists (lines usage). assert (F : forallb (fun l => one_lineb l && no_crb l) (lines usage) = true) by (vm_compute; reflexivity).
  assert (G : Forall plain_word (lines usage)).
  { apply Forall_forall. intros l I. rewrite forallb_forall in F. apply F in I. apply andb_true_iff in I. destruct I. now apply plain_literal. }
  split; [|exact G]. split; [vm_compute; reflexivity|]. eapply Forall_impl; [|exact G]. intros x P. apply P.
Qed.

Lemma main_good_devices : forall P fuel args kernel opts send started last ticks w c w' out r ns,
  parse_args fuel args = Some (Ret (r, ns)) -> Forall plain_word (ns_devices ns) ->
  main_t P fuel args kernel opts send started last ticks w = Some (Ret (c, w', out)) -> Forall good out.
Proof.
  intros P fuel args kernel opts send started last ticks w c w' out r ns EP PA H. unfold main_t in H. rewrite EP in H.
  destruct (negb _).
  { assert (out = [Print usage]) as -> by congruence. constructor; [apply usage_plain|auto]. }
  destruct (start_test_t _ _ _ _ _ _ _) as [[[[[[og lb] s] w1] said]|]|] eqn:ST; try discriminate.
  apply start_test_good in ST; [|exact PA]. destruct ST as [G N].
  destruct og as [g|]; [|assert (out = said) as -> by congruence; exact G].
  destruct (run_t _ _ _ _ _ _ _ _) as [[[passed|] more]|] eqn:R; try discriminate. apply run_good in R; [|exact N].
  cbn [stopInterfaceGroup_t destroy_ptr_traces] in H.
  match type of H with Some (Ret (_, _, ?x)) = _ => assert (out = x) as -> by congruence end.
  apply app_good; [exact G|]. apply app_good; [exact R|]. constructor.
  - cbn [good]. destruct (result_not passed); [apply plain_text_nil|apply plain_text_line; plain_tac].
  - apply app_good; [auto|]. constructor; [|auto]. apply plain_text_line. plain_tac.
Qed.

Lemma main_good : forall P fuel args kernel opts send started last ticks w c w' out, Forall plain_word args ->
  main_t P fuel args kernel opts send started last ticks w = Some (Ret (c, w', out)) -> Forall good out.
Proof.
  intros P fuel args kernel opts send started last ticks w c w' out A H.
  destruct (parse_args fuel args) as [[[r ns]|]|] eqn:PA; try (unfold main_t in H; rewrite PA in H; discriminate).
  eapply main_good_devices; [exact PA|eapply parse_plain; eauto|exact H].
Qed.

Lemma main_on : forall P fuel args kernel opts send started last ticks w c w' out, Forall plain_word args ->
  main_t P fuel args kernel opts send started last ticks w = Some (Ret (c, w', out)) ->
  List.filter (fun l => negb (is_trace l)) (lines (render true out)) = lines (render false out) /\
  List.filter is_trace (lines (render true out)) = trace_lines out.
Proof.
  intros P fuel args kernel opts send started last ticks w c w' out A H. apply main_good in H; [|exact A].
  destruct (good_lines out H) as (ls & X & Y & Z). rewrite (is_text_lines _ _ X), (is_text_lines _ _ Y). auto.
Qed.

(** ** What is traced *)
Lemma header_out : forall size cs ts d, 16 <= size \/ cs = [] ->
  trace_lines (snd (cmsg_loop_t size cs ts d)) = flat_map (header_traces size) cs.
Proof.
  intros size cs ts d [S|E]; [|subst; reflexivity]. revert ts d. induction cs as [|c cs IH]; intros ts d; [reflexivity|].
  cbn [cmsg_loop_t flat_map]. unfold header_traces at 1, is_drop. destruct (cm_level c =? SOL_SOCKET) eqn:L; cbn [negb andb].
  - destruct (Z.leb_spec sizeof_timeval size) as [_|X]; [|unfold sizeof_timeval in X; lia]. rewrite andb_true_r.
    destruct (cm_type c =? SO_TIMESTAMP); cbn [orb]; [apply IH|]. destruct ((cm_type c =? SO_RXQ_OVFL) && (4 <=? cm_len c)); [apply IH|].
    specialize (IH ts d). destruct (cmsg_loop_t _ _ _ _) as [[? ?] ?]. cbn [snd trace_lines app]. cbn [snd] in IH. now rewrite IH.
  - specialize (IH ts d). destruct (cmsg_loop_t _ _ _ _) as [[? ?] ?]. cbn [snd trace_lines app]. cbn [snd] in IH. now rewrite IH.
Qed.

Lemma make_fid : forall n id d len ts f, frame_make n id d len ts = Ret f -> fid f = id.
Proof.
  intros n id [d|] len ts f H; cbn [frame_make] in H; [apply bind_ret_inv in H; destruct H as (x & _ & H)|]; assert (f = Frame id _ _ _) as -> by (symmetry; injection H; intros <-; reflexivity); reflexivity.
Qed.
Lemma assign_fid : forall n a b f, frame_assign n a b = Ret f -> fid f = fid b.
Proof.
  intros n a b f H. unfold frame_assign in H. apply bind_ret_inv in H. destruct H as (x & _ & H). injection H as <-. reflexivity.
Qed.

Lemma read_loop_out : forall msgs i buf olds st out k st' o n said, Forall kmsg_typed msgs -> (List.length msgs <= List.length olds)%nat ->
  skipn i buf = receive_all msgs olds -> read_loop_t msgs i buf st out k = Ret (st', o, n, said) ->
  trace_lines said = flat_map message_traces msgs.
Proof.
  induction msgs as [|m msgs IH]; intros i buf olds st out k st' o n said TM LO SB H; cbn [read_loop_t] in H.
  - assert (said = []) as -> by congruence. reflexivity.
  - destruct olds as [|old olds]; [cbn [List.length] in LO; lia|]. inversion TM as [|? ? T1 T2]; subst. cbn [receive_all] in SB.
    destruct (nth_error buf i) as [c|] eqn:EC; [|discriminate]. rewrite (skipn_nth _ _ _ _ EC) in SB. injection SB as SC SB.
    assert (IDC : cf_id c = km_id m) by (rewrite SC; reflexivity).
    destruct (nth_error out k) as [of|]; [|discriminate].
    assert (HS : trace_lines (snd (cmsg_loop_t (km_controllen m) (km_cmsgs m) 0 (rx_dropped st))) = flat_map (header_traces (km_controllen m)) (km_cmsgs m)).
    { apply header_out. destruct T1 as (_ & _ & _ & T1). destruct (km_cmsgs m); [now right|]. left. apply T1. discriminate. }
    pose proof (stamp_loop m (rx_dropped st) T1) as TS. rewrite cmsg_erase in TS.
    destruct (cmsg_loop_t _ _ _ _) as [[ts d] heads]. cbn [fst snd] in HS, TS. subst ts.
    cbn [flat_map]. unfold message_traces at 1. rewrite IDC in H. rewrite has_err, has_mask in H. cbn [List.length] in LO.
    destruct (is_error (km_id m)); cbn [negb andb].
    + apply bind_ret_inv in H. destruct H as ([[[? ?] ?] more] & R & H). eapply IH in R; [|exact T2| |exact SB]; [|lia].
      assert (said = (heads ++ more)%list) as -> by congruence. rewrite trace_lines_app, HS, R, app_nil_r. reflexivity.
    + destruct (identifier (km_id m) =? 0); cbn [negb] in *.
      * apply bind_ret_inv in H. destruct H as ([[[? ?] ?] more] & R & H). eapply IH in R; [|exact T2| |exact SB]; [|lia].
        assert (said = (heads ++ more)%list) as -> by congruence. rewrite trace_lines_app, HS, R, app_nil_r. reflexivity.
      * apply bind_ret_inv in H. destruct H as (tmp & MK & H). apply bind_ret_inv in H. destruct H as (f & AS & H).
        apply bind_ret_inv in H. destruct H as ([[[? ?] ?] more] & R & H). eapply IH in R; [|exact T2| |exact SB]; [|lia].
        apply make_fid in MK. apply assign_fid in AS.
        match type of H with Ret (_, _, _, ?x) = _ => assert (said = x) as -> by congruence end.
        rewrite trace_lines_app, HS. cbn [trace_lines]. rewrite R, AS, MK, <- app_assoc. reflexivity.
Qed.

Lemma read_out_traces : forall res errno msgs s out r said, iface_typed s -> recv_ok res msgs ->
  read_t res errno msgs s out = Ret (r, said) -> trace_lines said = flat_map message_traces (if 0 <? res then msgs else []).
Proof.
  intros res errno msgs s out r said (LB & _ & _) (R4 & TM & LR) H. unfold read_t in H.
  destruct (Z.leb_spec res 0) as [N|N]; destruct (Z.ltb_spec 0 res) as [M|M]; try lia.
  - assert (said = []) as -> by congruence. reflexivity.
  - specialize (LR M). cbn zeta in H. assert (firstn RxFramesLen (firstn (Z.to_nat res) msgs) = msgs) as E.
    { rewrite <- LR, Nat2Z.id, firstn_all. apply firstn_all2. unfold RxFramesLen. lia. }
    rewrite E in H. apply bind_ret_inv in H. destruct H as ([[[st o] k] sd] & R & H). assert (said = sd) as -> by congruence.
    eapply read_loop_out; [exact TM| | |exact R]; [|reflexivity]. lia.
Qed.

(** Only traces: all lines are. *)
Lemma traces_text : forall out, Forall good out -> traces out -> lines (render true out) = trace_lines out.
Proof.
  intros out G O. destruct (good_lines out G) as (ls & X & Y & Z). rewrite (is_text_lines _ _ X), <- Z.
  rewrite (traces_off _ O) in Y. destruct Y as [Y _]. symmetry in Y. apply unlines_nil in Y.
  symmetry. apply filter_all. apply Forall_forall. intros l I. destruct (is_trace l) eqn:E; [reflexivity|].
  assert (In l []) as []. rewrite <- Y. apply filter_In. rewrite E. auto.
Qed.

Lemma read_text : forall res errno msgs s out r said, iface_typed s -> recv_ok res msgs ->
  read_t res errno msgs s out = Ret (r, said) ->
  lines (render true said) = flat_map message_traces (if 0 <? res then msgs else []) /\ render false said = "".
Proof.
  intros res errno msgs s out r said T R H. split; [|eapply traces_off, read_traces; eauto].
  rewrite <- (read_out_traces _ _ _ _ _ _ _ T R H). apply traces_text; [eapply read_good; eauto|eapply read_traces; eauto].
Qed.

(** ** What starting traces *)
Lemma open_out : forall m name a o tr, no_nul name ->
  trace_lines (snd (openSocket_t name (m_canfd m) (m_own m) a o tr)) = attempt_traces m name a o.
Proof.
  intros m name a o tr NN. unfold openSocket_t, attempt_traces, gets_bound. cbn zeta.
  destruct (Z.ltb_spec (a_socket a) 0), (Z.leb_spec 0 (a_socket a)); try lia; [reflexivity|]. cbn [andb].
  destruct (m_canfd m), (a_canfd a =? 0); cbn [andb negb orb]; try reflexivity.
  all: destruct (m_own m), (a_own a =? 0); cbn [andb negb orb]; try reflexivity.
  all: unfold IFNAMSIZ; destruct (Z.leb_spec 16 (Z.of_nat (String.length name))), (Z.ltb_spec (Z.of_nat (String.length name)) 16); try lia; try reflexivity.
  all: cbn [andb]; destruct (Z.ltb_spec (a_ioctl a) 0), (Z.leb_spec 0 (a_ioctl a)); try lia; try reflexivity.
  all: cbn [andb orb]; destruct (Z.ltb_spec (a_ifindex a) 0), (Z.leb_spec 0 (a_ifindex a)); try lia; try reflexivity.
  all: cbn [andb orb]; destruct (Z.ltb_spec (a_bind a) 0), (Z.leb_spec 0 (a_bind a)); try lia; try reflexivity.
  all: match goal with |- trace_lines (snd (if ?b then _ else _)) = _ => destruct b end; cbn [snd]; unfold option_traces; cbn zeta;
    rewrite (c_str_id _ NN); cbn [List.filter fst];
    destruct (o_timestamp o <? 0), (o_overflow o <? 0), (o_errors o <? 0); reflexivity.
Qed.

Lemma create_t_cases : forall m i name configs num a o w, configs_ok configs num ->
  exists r s w' said, createInterface_t m i name configs num a o w = Ret (r, s, w', said) /\
    (exists more, w_trace w' = (w_trace w ++ more)%list) /\
    ((s = None /\ ~ comes_up m configs num name a) \/
     (s = Some (iface_make i name (a_socket a)) /\ r = Success /\ comes_up m configs num name a)).
Proof.
  intros m i name configs num a o w OK. destruct (create_cases m i name configs num a w OK) as (r & s & w' & C & D).
  rewrite (create_erase _ _ _ _ _ _ o) in C. apply bind_ret_inv in C. destruct C as ([[[r1 s1] w1] said] & C & E).
  assert (r1 = r /\ s1 = s /\ w1 = w') as (-> & -> & ->) by (injection E; auto).
  exists r, s, w', said. split; [exact C|]. destruct D as [(D1 & _ & D2 & D3)|(D1 & D2 & D3 & D4)].
  - split; [|auto]. destruct D3 as [D3|[[_ D3]|[_ D3]]]; rewrite D3; [exists []; now rewrite app_nil_r|rewrite <- app_assoc; eauto|eauto].
  - split; [rewrite D4; eauto|auto].
Qed.

Lemma start_loop_out : forall m configs num kernel opts, configs_ok configs num -> (List.length (m_required m) <= 255)%nat ->
  Forall no_nul (m_required m) ->
  forall todo done fuel acc w g w' said, m_required m = (done ++ todo)%list ->
  start_loop_t fuel (Z.of_nat (List.length done)) (List.length done) m configs num kernel opts acc w = Some (Ret (g, w', said)) ->
  exists l new, map at_name l = todo /\ g = (acc ++ new)%list /\ List.length new = up l /\ Forall fresh new /\
    trace_lines said = attempts_traces m l /\ (exists more, w_trace w' = (w_trace w ++ more)%list) /\
    (forall t x, nth_error l t = Some x ->
      (at_up x = true <-> comes_up m configs num (at_name x) (at_answers x)) /\
      exists tr more, w_trace w' = (tr ++ more)%list /\ at_answers x = kernel (List.length done + t)%nat tr /\ at_options x = opts (List.length done + t)%nat tr).
Proof.
  intros m configs num kernel opts OK LEN NN. induction todo as [|name todo IH]; intros done fuel acc w g w' said E H.
  - destruct fuel as [|fuel]; [discriminate|]. cbn [start_loop_t] in H. rewrite E, app_nil_r, Z.ltb_irrefl in H.
    assert (g = acc /\ w' = w /\ said = []) as (-> & -> & ->) by (injection H; auto). exists [], []. cbn. rewrite app_nil_r.
    do 5 (split; [auto|]). split; [exists []; now rewrite app_nil_r|]. intros [|t] x; discriminate.
  - destruct fuel as [|fuel]; [discriminate|]. cbn [start_loop_t] in H.
    assert (LL : List.length (m_required m) = (List.length done + S (List.length todo))%nat) by (rewrite E, app_length; reflexivity).
    destruct (Z.ltb_spec (Z.of_nat (List.length done)) (Z.of_nat (List.length (m_required m)))); [|lia].
    assert (NE : nth_error (m_required m) (Z.to_nat (Z.of_nat (List.length done))) = Some name).
    { rewrite Nat2Z.id, E. rewrite nth_error_app2, Nat.sub_diag by lia. reflexivity. }
    rewrite NE in H.
    assert (NM : no_nul name) by (rewrite Forall_forall in NN; apply NN; eapply nth_error_In; eauto).
    set (a := kernel (List.length done) (w_trace w)) in *. set (o := opts (List.length done) (w_trace w)) in *.
    destruct (create_t_cases m (Z.of_nat (List.length done)) name configs num a o w OK) as (r & s & w1 & sd & C & (m1 & T1) & D).
    rewrite C in H. apply create_traces in C. rewrite Z.mod_small in H by lia.
    replace (Z.of_nat (List.length done) + 1) with (Z.of_nat (List.length (done ++ [name])%list)) in H by (rewrite app_length; cbn [List.length]; lia).
    replace (S (List.length done)) with (List.length (done ++ [name])%list) in H by (rewrite app_length; cbn [List.length]; lia).
    match type of H with context [start_loop_t _ _ _ _ _ _ _ _ ?x _] => set (acc' := x) in * end.
    destruct (start_loop_t _ _ _ _ _ _ _ _ _ _) as [[[[g2 w2] more]|]|] eqn:L; try discriminate.
    assert (g2 = g /\ w2 = w' /\ said = (sd ++ more)%list) as (-> & -> & ->) by (injection H; auto).
    destruct (IH (done ++ [name])%list fuel acc' w1 g w' more) as (l & new & A1 & A2 & A3 & A4 & A5 & (m2 & A6) & A7);
      [rewrite <- app_assoc; exact E|exact L|].
    assert (IX : forall t, (List.length (done ++ [name])%list + t = List.length done + S t)%nat) by (intros; rewrite app_length; cbn [List.length]; lia).
    assert (T2 : w_trace w' = (w_trace w ++ m1 ++ m2)%list) by (rewrite A6, T1, app_assoc; reflexivity).
    set (b := match s with Some _ => true | None => false end).
    assert (B : b = true <-> comes_up m configs num name a).
    { unfold b. destruct D as [(-> & D)|(-> & _ & D)]; split; auto; discriminate || contradiction. }
    exists (Attempt name a o b :: l), ((match s with Some x => [x] | None => [] end) ++ new)%list.
    split; [cbn [map at_name]; now rewrite A1|]. split; [|split; [|split; [|split; [|split]]]].
    + subst g. unfold acc'. destruct D as [(-> & _)|(-> & -> & _)]; [reflexivity|]. change (negb (result_not Success)) with true. cbn iota.
      rewrite <- app_assoc. reflexivity.
    + unfold up. cbn [List.filter at_up]. unfold b. destruct s; cbn [app List.length]; rewrite A3; reflexivity.
    + destruct D as [(-> & _)|(-> & _ & _)]; [exact A4|]. constructor; [|exact A4]. unfold fresh. eauto.
    + rewrite trace_lines_app, A5, C, (open_out _ _ _ _ _ NM). reflexivity.
    + eauto.
    + intros [|t] x X; cbn [nth_error] in X.
      * injection X as <-. cbn [at_up at_name at_answers at_options]. split; [exact B|]. exists (w_trace w), (m1 ++ m2)%list.
        rewrite Nat.add_0_r. auto.
      * rewrite <- IX. now apply A7.
Qed.

Lemma repeat_map : forall A B (f : A -> B) x l, (forall a, f a = x) -> map f l = repeat x (List.length l).
Proof. intros A B f x l H. induction l as [|a l IH]; [reflexivity|]. cbn [map List.length repeat]. now rewrite H, IH. Qed.
Lemma destroy_out : forall g, trace_lines (destroy_traces g) = repeat closing (List.length g).
Proof. induction g as [|s g IH]; [reflexivity|]. cbn [List.length repeat]. rewrite <- IH. reflexivity. Qed.

Lemma start_out : forall fuel m configs num kernel opts out w r out' w' said, configs_ok configs num -> (List.length (m_required m) <= 255)%nat ->
  Forall no_nul (m_required m) ->
  startInterfaceGroup_t fuel m configs num kernel opts out w = Some (Ret (r, out', w', said)) ->
  exists l, attempts m configs num kernel opts (w_trace w') l /\
    trace_lines said = (attempts_traces m l ++ if (0 <? up l)%nat then repeat closing (List.length (owned out)) else [])%list /\
    (forall g, out = None -> out' = Some g -> Forall fresh g /\ List.length g = up l /\ (0 < up l)%nat) /\
    (out = None -> out' = None -> up l = 0%nat) /\ (r = NotFound <-> up l = 0%nat).
Proof.
  intros fuel m configs num kernel opts out w r out' w' said OK LEN NN H. unfold startInterfaceGroup_t in H.
  destruct (start_loop_t _ _ _ _ _ _ _ _ _ _) as [[[[g w1] sd]|]|] eqn:L; try discriminate.
  destruct (start_loop_out m configs num kernel opts OK LEN NN (m_required m) [] fuel [] w g w1 sd eq_refl L) as
    (l & new & A1 & A2 & A3 & A4 & A5 & _ & A7). cbn [app List.length Nat.add] in A2, A7. subst new.
  exists l. destruct g as [|s g].
  - cbn [List.length] in A3. assert (r = NotFound /\ out' = out /\ w' = w1 /\ said = sd) as (-> & -> & -> & ->) by (injection H; auto).
    split; [split; [exact A1|exact A7]|]. rewrite <- A3. cbn [Nat.ltb Nat.leb]. rewrite app_nil_r.
    split; [exact A5|]. split; [intros g -> X; discriminate|]. split; [auto|tauto].
  - assert (U : (0 < up l)%nat) by (rewrite <- A3; cbn [List.length]; lia).
    assert (E1 : r = if Z.of_nat (List.length (m_required m)) <=? getInterfaceCount (s :: g) then Success else SuccessPartial) by (injection H; auto).
    assert (E2 : out' = Some (s :: g)) by (injection H; auto).
    assert (E3 : w_trace w' = destroy_ptr out (w_trace w1)) by (injection H; intros; subst; reflexivity).
    assert (E4 : said = (sd ++ destroy_ptr_traces out)%list) by (injection H; auto).
    split; [split; [exact A1|]|].
    { intros t x X. destruct (A7 t x X) as (Q1 & tr & more & Q2 & Q3). split; [exact Q1|]. rewrite E3, Q2.
      exists tr. unfold destroy_ptr, destroy. destruct out; [rewrite <- app_assoc|]; eauto. }
    split; [|split; [|split]].
    + rewrite E4, trace_lines_app, A5. destruct (Nat.ltb_spec 0 (up l)); [|lia]. f_equal. destruct out as [o|]; [|reflexivity].
      cbn [destroy_ptr_traces owned]. rewrite map_length. apply destroy_out.
    + intros g0 -> X. assert (g0 = s :: g) as -> by congruence. auto.
    + intros _ X. congruence.
    + rewrite E1. destruct (_ <=? _); split; intros X; try discriminate; lia.
Qed.

Lemma start_text : forall fuel m configs num kernel opts out w r out' w' said, configs_ok configs num -> (List.length (m_required m) <= 255)%nat ->
  Forall plain_word (m_required m) -> Forall no_nul (m_required m) ->
  startInterfaceGroup_t fuel m configs num kernel opts out w = Some (Ret (r, out', w', said)) ->
  render false said = "" /\
  exists l, attempts m configs num kernel opts (w_trace w') l /\ (r = NotFound <-> up l = 0%nat) /\
    lines (render true said) = (attempts_traces m l ++ if (0 <? up l)%nat then repeat closing (List.length (owned out)) else [])%list.
Proof.
  intros fuel m configs num kernel opts out w r out' w' said OK LEN P NN H. split; [eapply traces_off, start_traces; eauto|].
  destruct (start_out _ _ _ _ _ _ _ _ _ _ _ _ OK LEN NN H) as (l & A & B & _ & _ & C). exists l. split; [exact A|]. split; [exact C|].
  rewrite traces_text; [exact B|eapply start_good; eauto|eapply start_traces; eauto].
Qed.

(** ** What the program traces *)
Lemma read_round_out : forall n i recv g out g' batch, Forall iface_typed g -> (i + n <= List.length g)%nat -> frames_typed out ->
  (forall k, (i <= k < i + n)%nat -> let '(res, errno, msgs) := recv k in recv_ok res msgs) ->
  read_round_t n i recv g out = Ret (g', batch) ->
  map (fun x => trace_lines (snd x)) batch =
  map (fun k => flat_map message_traces (let '(res, _, msgs) := recv k in if 0 <? res then msgs else [])) (seq i n).
Proof.
  induction n as [|n IH]; intros i recv g out g' batch TG L TO R H; cbn [read_round_t seq map] in *.
  - assert (batch = []) as -> by congruence. reflexivity.
  - assert (Ri := R i ltac:(lia)). destruct (recv i) as [[res errno] msgs] eqn:ER.
    apply bind_ret_inv in H. destruct H as ([[[[g1 r] c] f1] said] & G & H).
    apply bind_ret_inv in H. destruct H as ([g2 rest] & RR & H).
    match type of H with Ret (_, ?x) = _ => assert (batch = x) as -> by congruence end. cbn [map snd].
    destruct (group_read_ok res errno msgs g i out TG ltac:(lia) TO Ri) as (g1' & r' & c' & fs' & GR & L1 & T1 & F1 & _).
    rewrite group_read_erase, G in GR. cbn [bind] in GR.
    assert (g1' = g1 /\ fs' = f1) as (-> & ->) by (injection GR; auto).
    rewrite (IH (S i) recv g1 f1 g2 rest T1); [|lia|exact F1|intros k K; apply R; lia|exact RR]. f_equal.
    unfold group_read_t in G. destruct (_ <=? _) eqn:LE; [apply Z.leb_le in LE; lia|]. rewrite Nat2Z.id in G.
    destruct (nth_error g i) as [s|] eqn:EN; [|discriminate]. apply bind_ret_inv in G. destruct G as ([r1 sd] & RD & G).
    assert (said = sd) as -> by congruence. eapply read_out_traces; [|exact Ri|exact RD].
    rewrite Forall_forall in TG. apply TG. eapply nth_error_In; eauto.
Qed.

Lemma evaluate_round_out : forall open g batch i found f out, evaluate_round_t open g i batch found = Ret (f, out) ->
  trace_lines out = flat_map (fun x => trace_lines (snd x)) batch.
Proof.
  intros open g. induction batch as [|[[r fs] said] batch IH]; intros i found f out H; cbn [evaluate_round_t] in H.
  - assert (out = []) as -> by congruence. reflexivity.
  - apply bind_ret_inv in H. destruct H as ([f1 text] & _ & H). apply bind_ret_inv in H. destruct H as ([f2 more] & R & H).
    assert (out = (said ++ Print text :: more)%list) as -> by congruence. rewrite trace_lines_app. cbn [trace_lines flat_map snd].
    now rewrite (IH _ _ _ _ R).
Qed.

Lemma evaluate_round_order : forall open g, plainly g -> forall batch i found f out, Forall (fun x => Forall good (snd x)) batch ->
  Forall (fun x => traces (snd x)) batch ->
  evaluate_round_t open g i batch found = Ret (f, out) ->
  exists evals, List.length evals = List.length batch /\ Forall untraced evals /\
    lines (render true out) = concat (map (fun p => (trace_lines (snd (fst p)) ++ snd p)%list) (combine batch evals)).
Proof.
  intros open g N. induction batch as [|[[r fs] said] batch IH]; intros i found f out G T H; cbn [evaluate_round_t] in H.
  - assert (out = []) as -> by congruence. exists []. auto.
  - inversion G as [|? ? G1 G2]; inversion T as [|? ? T1 T2]; subst. apply bind_ret_inv in H. destruct H as ([f1 text] & E & H).
    apply bind_ret_inv in H. destruct H as ([f2 more] & R & H).
    pose proof (evaluate_round_good _ _ N _ _ _ _ _ G2 R) as GM.
    destruct (IH _ _ _ _ G2 T2 R) as (evals & A & B & C).
    assert (PT : plain_text text).
    { destruct (open && _); [eapply evaluate_plain; eauto|]. assert (text = "") as -> by congruence. apply plain_text_nil. }
    assert (out = (said ++ Print text :: more)%list) as -> by congruence. change (Print text :: more) with ([Print text] ++ more)%list.
    exists (lines (render true [Print text]) :: evals). split; [cbn [List.length]; now rewrite A|].
    split; [constructor; [now apply lines_print|exact B]|].
    cbn [snd] in *. rewrite lines_app; [|exact G1|constructor; [exact PT|exact GM]]. rewrite lines_app by (try exact GM; constructor; auto).
    rewrite C, (traces_text said G1 T1). cbn [combine map concat fst snd]. now rewrite app_assoc.
Qed.

Lemma combine_flat : forall A (f : A -> list string) (F : nat -> list string) batch evals i, List.length evals = List.length batch ->
  map f batch = map F (seq i (List.length batch)) ->
  concat (map (fun p => (f (fst p) ++ snd p)%list) (combine batch evals)) =
  flat_map (fun k => (F k ++ nth (k - i) evals [])%list) (seq i (List.length batch)).
Proof.
  intros A f F. induction batch as [|x batch IH]; intros [|e evals] i L M; try discriminate; [reflexivity|].
  cbn [List.length map combine seq concat flat_map fst snd] in *. injection M as M1 M2. injection L as L.
  rewrite M1, Nat.sub_diag, (IH evals (S i) L M2). cbn [nth]. f_equal. rewrite !flat_map_concat_map. f_equal. apply map_ext_in. intros k K. apply in_seq in K.
  replace (k - i)%nat with (S (k - S i)) by lia. reflexivity.
Qed.

Lemma frames_buffer_typed : frames_typed (repeat (frame_default mtu) RxFramesLen).
Proof. split; [reflexivity|]. repeat constructor; cbn; lia. Qed.

Lemma run_out : forall P timeout continuous started ticks last g lb r out, Forall iface_typed g -> (List.length g <= 255)%nat ->
  ticks_ok (List.length g) ticks ->
  run_t P timeout continuous started last ticks g lb = Ret (r, out) ->
  exists j, (j <= List.length ticks)%nat /\ trace_lines out = reading_traces (List.length g) (firstn j ticks) /\
    (forall i, (i < j)%nat -> exists o, run_t P timeout continuous started last (firstn i ticks) g lb = Ret (None, o)) /\
    (r <> None ->
     (continuous = false /\ exists o, run_t P timeout continuous started last (firstn j ticks) g lb = Ret (Some Success, o)) \/
     (exists k, nth_error ticks j = Some k /\ timed_out P timeout started (tk_check k) = Ret true /\
        exists o, run_t P timeout continuous started last (firstn j ticks) g lb = Ret (None, o))) /\
    (plainly g -> exists blocks tail, Forall2 (iteration_lines (List.length g)) (firstn j ticks) blocks /\ untraced tail /\
       lines (render true out) = (concat blocks ++ tail)%list).
Proof.
  intros P timeout continuous started. induction ticks as [|k rest IH]; intros last g lb r out T L TK H; cbn [run_t] in H.
  - exists 0%nat. split; [auto|]. assert (out = [] /\ r = None) as (-> & ->) by (split; congruence). split; [reflexivity|].
    split; [lia|]. split; [congruence|]. intros _. exists [], []. split; [constructor|]. split; [constructor|reflexivity].
  - inversion TK as [|? ? K1 K2]; subst. destruct (timed_out _ _ _ _) as [[|]|] eqn:TO; cbn [bind] in H; [| |discriminate].
    { exists 0%nat. split; [lia|]. match type of H with Ret (_, ?x) = _ => assert (out = x) as -> by congruence end. split; [reflexivity|].
      split; [lia|]. split; [intros _; right; exists k; split; [reflexivity|]; split; [exact TO|]; exists []; reflexivity|].
      intros _. eexists [], _. split; [constructor|]. split; [|cbn [concat app]; reflexivity]. apply lines_print.
      rewrite <- append_assoc. apply plain_text_line. plain_tac. }
    destruct (select _ _ _ _ _) as [sel|] eqn:SE; cbn [bind] in H; [|discriminate].
    destruct (sarith _ _ _) as [period|] eqn:SA; cbn [bind] in H; [|discriminate].
    apply bind_ret_inv in H. destruct H as ([g' batch] & RR & H). apply bind_ret_inv in H. destruct H as ([f s] & EV & H).
    apply bind_ret_inv in H. destruct H as ([r1 more] & MO & H).
    assert (GC : Z.to_nat (getInterfaceCount g) = List.length g) by (unfold getInterfaceCount; lia).
    rewrite GC in RR.
    assert (RK : forall k0, (0 <= k0 < 0 + List.length g)%nat -> let '(res, errno, msgs) := tk_recv k k0 in recv_ok res msgs).
    { intros k0 K0. apply K1. lia. }
    destruct (read_round_ok (List.length g) 0 (tk_recv k) g _ T ltac:(lia) frames_buffer_typed RK) as (g1 & b1 & R1 & L1 & T1 & _).
    rewrite read_round_erase, RR in R1. cbn [bind] in R1. assert (g' = g1) as -> by congruence.
    pose proof (read_round_out (List.length g) 0 (tk_recv k) g _ g1 batch T (le_n _) frames_buffer_typed RK RR) as RO.
    pose proof (evaluate_round_out _ _ _ _ _ _ _ EV) as EO. rewrite flat_map_concat_map, RO, <- flat_map_concat_map in EO.
    match type of H with Ret (_, ?x) = _ => assert (out = x /\ r = r1) as (-> & ->) by (split; congruence) end. clear H.
    cbn [trace_lines]. rewrite trace_lines_app, EO.
    set (next := fun ticks' => if isComplete g1 f
           then if negb continuous then Ret (Some Success, [])
                else run_t P timeout continuous started (if ns_per_second <=? period then tk_now k else last) ticks' g1 (LoopBack f Success)
           else run_t P timeout continuous started (if ns_per_second <=? period then tk_now k else last) ticks' g1 (LoopBack f (lb_result lb))).
    assert (ST : forall ticks' r' o', next ticks' = Ret (r', o') ->
              exists o, run_t P timeout continuous started last (k :: ticks') g lb = Ret (r', o)).
    { intros ticks' r' o' N. cbn [run_t]. rewrite TO. cbn [bind]. rewrite SE. cbn [bind]. rewrite SA. cbn [bind]. rewrite GC, RR. cbn [bind].
      rewrite EV. cbn [bind]. unfold next in N. cbn zeta. rewrite N. cbn [bind]. eexists. reflexivity. }
    assert (M : exists j, (j <= List.length rest)%nat /\ trace_lines more = reading_traces (List.length g) (firstn j rest) /\
      (forall i, (i < j)%nat -> exists o, next (firstn i rest) = Ret (None, o)) /\
      (r1 <> None ->
       (continuous = false /\ exists o, next (firstn j rest) = Ret (Some Success, o)) \/
       (exists k, nth_error rest j = Some k /\ timed_out P timeout started (tk_check k) = Ret true /\
          exists o, next (firstn j rest) = Ret (None, o))) /\
      (plainly g1 -> Forall good more /\ exists blocks tail, Forall2 (iteration_lines (List.length g)) (firstn j rest) blocks /\ untraced tail /\
         lines (render true more) = (concat blocks ++ tail)%list)).
    { assert (REC : forall la lb', run_t P timeout continuous started la rest g1 lb' = Ret (r1, more) -> plainly g1 -> Forall good more)
        by (intros; eapply run_good; eauto).
      unfold next. destruct (isComplete g1 f); [destruct (negb continuous) eqn:NC|].
      - exists 0%nat. assert (more = []) as -> by congruence. split; [lia|]. split; [reflexivity|]. split; [lia|].
        split; [intros _; left; split; [now destruct continuous|eauto]|]. intros _. split; [constructor|]. exists [], [].
        split; [constructor|]. split; [constructor|reflexivity].
      - rewrite <- L1. destruct (IH _ _ _ _ _ T1 ltac:(lia) ltac:(rewrite L1; exact K2) MO) as (j & Q1 & Q2 & Q3 & Q4 & Q5). exists j.
        split; [exact Q1|]. split; [exact Q2|]. split; [exact Q3|]. split; [exact Q4|]. intros N. split; [eapply REC; eauto|auto].
      - rewrite <- L1. destruct (IH _ _ _ _ _ T1 ltac:(lia) ltac:(rewrite L1; exact K2) MO) as (j & Q1 & Q2 & Q3 & Q4 & Q5). exists j.
        split; [exact Q1|]. split; [exact Q2|]. split; [exact Q3|]. split; [exact Q4|]. intros N. split; [eapply REC; eauto|auto]. }
    destruct M as (j & M0 & M & M1 & M2 & M3). exists (S j). split; [cbn [List.length]; lia|]. split; [|split; [|split]].
    + cbn [firstn]. unfold reading_traces in *. cbn [flat_map]. rewrite M. f_equal.
      apply flat_map_ext. intros i. unfold received_on. cbn [flat_map]. now rewrite app_nil_r.
    + intros [|i] I; [exists []; reflexivity|]. destruct (M1 i ltac:(lia)) as (o & O). cbn [firstn]. eapply ST; eauto.
    + intros NN. destruct (M2 NN) as [(C & o & O)|(k' & N & TO' & o & O)].
      * left. split; [exact C|]. cbn [firstn]. eapply ST; eauto.
      * right. exists k'. split; [exact N|]. split; [exact TO'|]. cbn [firstn]. eapply ST; eauto.
    + intros N. assert (N1 : plainly g1) by (eapply plainly_names; [eapply read_round_t_names; exact RR|exact N]).
      destruct (M3 N1) as (GM & blocks & tail & F2 & UT & LM).
      pose proof (read_round_good _ _ _ _ _ _ _ RR) as BG. pose proof (read_round_traces _ _ _ _ _ _ _ RR) as BT.
      pose proof (evaluate_round_good _ _ N1 _ _ _ _ _ BG EV) as GS.
      destruct (evaluate_round_order _ _ N1 _ _ _ _ _ BG BT EV) as (evals & E1 & E2 & E3).
      assert (BL : List.length batch = List.length g) by (apply (f_equal (@List.length _)) in RO; rewrite !map_length, seq_length in RO; exact RO).
      match goal with |- context [render true (Print ?t :: s ++ more)%list] => set (text := t) end.
      assert (PT : plain_text text) by (apply stats_plain; exact N).
      exists ((lines (render true [Print text]) ++ lines (render true s)) :: blocks)%list, tail. split; [|split; [exact UT|]].
      * cbn [firstn]. constructor; [|exact F2]. exists (lines (render true [Print text])), evals. split; [now apply lines_print|].
        split; [now rewrite E1|]. split; [exact E2|]. f_equal. rewrite E3.
        etransitivity; [apply (combine_flat _ (fun x => trace_lines (snd x)) (fun k0 => flat_map message_traces (received_on k0 [k])) batch evals 0 E1)|].
        2: { rewrite BL. apply flat_map_ext. intros i. now rewrite Nat.sub_0_r. }
        rewrite RO, BL. apply map_ext. intros i. unfold received_on. cbn [flat_map]. now rewrite app_nil_r.
      * change (Print text :: s ++ more)%list with ([Print text] ++ (s ++ more))%list. rewrite lines_app by auto. rewrite lines_app by auto.
        rewrite LM. cbn [concat]. now rewrite !app_assoc.
Qed.

Lemma run_ends : forall P timeout continuous started ticks last g r out, wf_platform P -> 0 <= timeout * ns_per_second < 2 ^ 64 ->
  steady started last ticks -> Forall iface_typed g -> (List.length g <= 255)%nat -> ticks_ok (List.length g) ticks ->
  run_t P timeout continuous started last ticks g (LoopBack (repeat 0 (List.length g)) Failure) = Ret (Some r, out) ->
  exists j, ends_after timeout started continuous (List.length g) ticks j /\
    trace_lines out = reading_traces (List.length g) (firstn j ticks) /\
    (plainly g -> exists blocks tail, Forall2 (iteration_lines (List.length g)) (firstn j ticks) blocks /\ untraced tail /\
       lines (render true out) = (concat blocks ++ tail)%list).
Proof.
  intros P timeout continuous started ticks last g r out W TT ST T L TK H.
  destruct (run_out _ _ _ _ _ _ _ _ _ _ T L TK H) as (j & J0 & J1 & J2 & J3 & J4). exists j. split; [|auto].
  assert (V : forall i r' o, run_t P timeout continuous started last (firstn i ticks) g (LoopBack (repeat 0 (List.length g)) Failure) = Ret (r', o) ->
    match r' with
    | Some r => (r = Success -> all_arrived (deliveries (within timeout started (firstn i ticks))) (List.length g))
    | None => within timeout started (firstn i ticks) = firstn i ticks /\ (continuous = true \/ ~ all_arrived (deliveries (firstn i ticks)) (List.length g))
    end).
  { intros i r' o R.
    assert (SI : steady started last (firstn i ticks)).
    { destruct ST as [S1 S2]. unfold steady, readings in *. rewrite <- (firstn_skipn i ticks), flat_map_app in S1, S2.
      change (started :: last :: ?a ++ ?b)%list with ((started :: last :: a) ++ b)%list in S1, S2.
      set (u := started :: last :: _) in *. clearbody u. apply Forall_app in S2. split; [|tauto]. clear - S1.
      revert S1. induction u as [|x u IH]; intros S1; [constructor|].
      cbn [app] in S1. inversion S1 as [|? ? C1 C2]; subst. apply Forall_app in C2. constructor; tauto. }
    assert (TI : ticks_ok (List.length g) (firstn i ticks)) by (unfold ticks_ok in *; rewrite <- (firstn_skipn i ticks) in TK; apply Forall_app in TK; tauto).
    destruct (timed_verdict P timeout continuous started last (firstn i ticks) g W TT SI T L TI) as (r0 & reps & V & V').
    pose proof (run_erase P timeout continuous started (firstn i ticks) last g (LoopBack (repeat 0 (List.length g)) Failure)) as E.
    rewrite run_off, R in E. cbn [bind] in E. destruct E as (reps' & E). assert (r0 = r') as -> by congruence.
    destruct r' as [r'|]; [tauto|exact V']. }
  assert (CK := steady_clock _ _ _ ST).
  destruct (J3 ltac:(discriminate)) as [(C & o & O)|(k & N & TO & o & O)].
  - pose proof (V _ _ _ O) as A. cbn iota in A. specialize (A eq_refl).
    assert (WJ : within timeout started (firstn j ticks) = firstn j ticks).
    { destruct j as [|j]; [reflexivity|]. destruct (J2 j ltac:(lia)) as (o' & O'). destruct (V _ _ _ O') as (V1 & V2).
      destruct V2 as [V2|V2]; [congruence|].
      destruct (nth_error ticks j) as [k|] eqn:N; [|apply nth_error_None in N; lia].
      assert (F : firstn (S j) ticks = (firstn j ticks ++ [k])%list).
      { clear - N. revert ticks N. induction j as [|j IH]; intros [|x ticks] N; try discriminate; cbn [nth_error] in N.
        - injection N as ->. reflexivity.
        - cbn [firstn app]. f_equal. now apply IH. }
      rewrite F in *. unfold within in *. rewrite filter_app in *. rewrite V1 in *. cbn [List.filter] in *.
      destruct (tk_check k - started <=? timeout * 1000000000); [reflexivity|]. rewrite app_nil_r in A. contradiction. }
    split; [exact J0|]. split; [exact WJ|]. split.
    + intros i I. destruct (J2 i I) as (o' & O'). exact (proj2 (V _ _ _ O')).
    + left. split; [exact C|]. now rewrite WJ in A.
  - destruct (V _ _ _ O) as (V1 & V2). split; [exact J0|]. split; [exact V1|]. split.
    + intros i I. destruct (J2 i I) as (o' & O'). exact (proj2 (V _ _ _ O')).
    + right. split; [exact V2|]. exists k. split; [exact N|].
      assert (B : started <= tk_check k < 2 ^ 63 /\ 0 <= started).
      { destruct CK as (C1 & C2 & C3 & C4). apply StronglySorted_inv in C3. destruct C3 as (_ & C3). rewrite Forall_forall in C3, C4.
        assert (I : In (tk_check k) (flat_map (fun k => [tk_check k; tk_now k]) ticks)).
        { apply in_flat_map. exists k. split; [eapply nth_error_In; eauto|now left]. }
        specialize (C3 _ I). specialize (C4 _ I). cbn beta in C3. lia. }
      rewrite (timed_out_eq P timeout started (tk_check k)) in TO by (unfold ns_per_second in *; lia).
      assert (X : (timeout * ns_per_second <? tk_check k - started) = true) by congruence. apply Z.ltb_lt in X. exact X.
Qed.

Lemma parse_nul : forall fuel args r ns, Forall no_nul args -> parse_args fuel args = Some (Ret (r, ns)) -> Forall no_nul (ns_devices ns).
Proof. intros fuel args r ns F H. unfold parse_args in H. eapply (parse_lacks zero); [| |exact H]; [exact F|constructor]. Qed.

Lemma main_out : forall P fuel cl kernel opts send started last ticks w c w' out,
  wf_platform P -> steady started last ticks -> ticks_ok 255 ticks ->
  ~ late_long_device cl -> devices cl <> [] -> (List.length (devices cl) <= 255)%nat -> (List.length cl < fuel)%nat ->
  Forall plain_word (devices cl) -> Forall no_nul (devices cl) ->
  main_t P fuel (command_line cl) kernel opts send started last ticks w = Some (Ret (c, w', out)) ->
  exists l tr more j, let m := Manager (devices cl) true true in
    attempts m (Some [Filter 0 0]) 1 kernel opts tr l /\ w_trace w' = (tr ++ more)%list /\
    List.filter is_trace (lines (render true out)) =
      (attempts_traces m l ++ reading_traces (up l) (firstn j ticks) ++ repeat closing (up l))%list /\
    ((0 < up l)%nat -> accepted send (up l) -> ends_after 10 started (continuous cl) (up l) ticks j) /\
    (up l = 0%nat \/ ~ accepted send (up l) -> j = 0%nat) /\
    (render false out = "" <-> up l = 0%nat) /\
    console_order (up l) (attempts_traces m l) (accepted send (up l)) (firstn j ticks) (lines (render true out)).
Proof.
  intros P fuel cl kernel opts send started last ticks w c w' out W SD TK NL NE LD F A ND H.
  pose proof (main_good_devices _ _ _ _ _ _ _ _ _ _ _ _ _ _ _ (proj2 (parse_documented cl fuel F) NL) A H) as G.
  destruct (good_lines out G) as (ls & X & _ & Z).
  assert (LX := is_text_lines _ _ X). rewrite LX, Z. unfold main_t in H.
  rewrite (proj2 (parse_documented cl fuel F) NL) in H.
  destruct (devices cl) as [|d0 ds] eqn:D; [congruence|]. rewrite <- D in *. clear NE.
  change (negb (Success =? Success)) with false in H. cbn [ns_devices ns_continuous] in H. cbv zeta.
  set (M := Manager (devices cl) true true) in *. unfold start_test_t in H. cbn [loopback_make lb_found List.length] in H.
  change (0 <? Z.of_nat 0) with false in H. cbn iota in H. change (negb (doesReceiveOwnMessages M)) with false in H. cbn iota in H.
  assert (OK : configs_ok (Some test_filters) 1) by (cbn; lia). change (List.length test_filters) with 1%nat in H.
  destruct (startInterfaceGroup_t _ _ _ _ _ _ _ _) as [[[[[r1 og] w1] said]|]|] eqn:ST; try discriminate.
  destruct (start_out _ M _ _ _ _ _ _ _ _ _ _ OK LD ND ST) as (l & AT & TL & GF & GN & RN). cbn [owned List.length repeat] in TL.
  assert (TL' : trace_lines said = attempts_traces M l) by (rewrite TL; destruct (0 <? up l)%nat; apply app_nil_r).
  clear TL. exists l, (w_trace w1).
  destruct (isFailure r1) eqn:IF.
  { assert (N : og = None).
    { destruct og as [g|]; [|reflexivity]. exfalso. destruct (GF g eq_refl eq_refl) as (_ & _ & U).
      unfold startInterfaceGroup_t in ST. destruct (start_loop_t _ _ _ _ _ _ _ _ _ _) as [[[[[|s0 g0] w0] sd0]|]|]; try discriminate.
      assert (E : r1 = if Z.of_nat (List.length (m_required M)) <=? getInterfaceCount (s0 :: g0) then Success else SuccessPartial) by (injection ST; auto).
      rewrite E in IF. destruct (_ <=? _) in IF; discriminate. }
    rewrite N in H. assert (out = said /\ w' = w1) as (-> & ->) by (split; congruence).
    exists [], 0%nat. split; [exact AT|]. split; [now rewrite app_nil_r|]. rewrite (GN eq_refl N). cbn [reading_traces firstn flat_map repeat app].
    rewrite app_nil_r. split; [exact TL'|]. split; [lia|]. split; [reflexivity|]. split; [split; [reflexivity|]|].
    { intros _; eapply traces_off, start_traces; eauto. } left. split; [reflexivity|].
    rewrite <- LX, traces_text; [exact TL'|eapply (start_good _ M); [exact A|exact ST]|eapply start_traces; eauto]. }
  destruct og as [g|]; [|discriminate]. destruct (GF g eq_refl eq_refl) as (FG & LG & U).
  assert (LL : (List.length g <= 255)%nat).
  { rewrite LG. unfold up. destruct AT as (AN & _). apply (f_equal (@List.length string)) in AN. rewrite map_length in AN. cbn [M m_required] in AN.
    pose proof (filter_length_le _ at_up l). lia. }
  assert (TG : Forall iface_typed g) by (eapply Forall_impl; [|exact FG]; intros; now apply fresh_typed).
  assert (FJ : forall j s, (0 <= j)%nat -> nth_error g j = Some s -> fresh s).
  { intros j s _ E. rewrite Forall_forall in FG. apply FG. eapply nth_error_In; eauto. }
  assert (GC : Z.to_nat (getInterfaceCount g) = List.length g) by (unfold getInterfaceCount; lia). rewrite GC in H.
  destruct (start_writes_spec (List.length g) 0 send g [] TG ltac:(lia) FJ) as (g' & f' & ok & sents & SW & LG' & TG' & FD & AC).
  rewrite start_writes_erase in SW.
  destruct (start_writes_c _ _ _ _ _) as [[[[[g2 f2] ok2] s2] text]|] eqn:SWC; [|discriminate]. cbn [bind] in SW.
  assert (g2 = g' /\ f2 = f' /\ ok2 = ok) as (-> & -> & ->) by (injection SW; auto).
  pose proof (start_plainly _ M _ _ _ _ _ _ _ _ _ A ST) as PG. destruct (start_writes_plain _ _ _ _ _ _ _ _ _ _ PG SWC) as [TX NM].
  assert (PG' : plainly g') by (eapply plainly_names; eauto).
  pose proof (start_good _ M _ _ _ _ _ _ _ _ _ _ A ST) as GS. pose proof (start_traces _ _ _ _ _ _ _ _ _ _ _ _ ST) as SS.
  assert (OP : plain_text ("Opened " ++ number (getInterfaceCount g) ++ " interface(s)." ++ endl)).
  { rewrite <- !append_assoc. apply plain_text_line. rewrite !append_assoc. plain_tac. }
  assert (OPN : forall b s, render_piece b (Print ("Opened " ++ number (getInterfaceCount g) ++ " interface(s)." ++ endl)) ++ s <> "")
    by (intros b s Q; discriminate Q).
  set (opened := "Opened " ++ _) in *. clearbody opened.
  assert (GO : Forall good [Print opened; Print text]) by (constructor; [exact OP|constructor; auto]).
  assert (UO : untraced (lines (render true [Print opened; Print text]))).
  { change [Print opened; Print text] with ([Print opened] ++ [Print text])%list. rewrite lines_app by (constructor; auto).
    apply Forall_app. split; now apply lines_print. }
  assert (GP : (0 <? getInterfaceCount g) = true) by (unfold getInterfaceCount; apply Z.ltb_lt; lia). rewrite GP in H. cbn [andb] in H.
  destruct ok.
  - cbn iota in H. destruct (FD eq_refl) as (-> & _). cbn [app lb_result loopback_make] in H. rewrite <- LG' in H.
    destruct (run_t _ _ _ _ _ _ _ _) as [[[passed|] more]|] eqn:R; try discriminate.
    assert (TK' : ticks_ok (List.length g') ticks).
    { unfold ticks_ok in *. eapply Forall_impl; [|exact TK]. intros k K i I. apply K. lia. }
    destruct (run_ends P 10 (continuous cl) started ticks last g' passed more W ltac:(unfold ns_per_second; lia) SD TG' ltac:(lia) TK' R) as (j & EA & J & JL).
    cbn [stopInterfaceGroup_t destroy_ptr_traces] in H.
    match type of H with Some (Ret (_, ?y, ?x)) = _ => assert (out = x /\ w' = y) as (-> & ->) by (split; congruence) end.
    eexists. exists j. split; [exact AT|]. split; [cbn [w_trace destroy_ptr]; unfold destroy; reflexivity|].
    rewrite <- LG, <- LG'. split; [|split; [intros _ _; exact EA|split; [|split]]].
    + rewrite !trace_lines_app, TL', J. cbn [trace_lines app]. rewrite !trace_lines_app, destroy_out. cbn [trace_lines].
      now rewrite !app_nil_r.
    + intros [Q|Q]; [lia|]. exfalso. apply Q. intros k K. apply (proj1 AC eq_refl). lia.
    + split; [|lia]. rewrite <- app_assoc, !render_app. intros Q. exfalso. revert Q.
      rewrite (traces_off said) by (eapply start_traces; eauto). cbn [app]. rewrite render_cons. intros Q. rewrite !append_assoc in Q. exact (OPN _ _ Q).
    + right. right. split; [lia|]. split; [intros k K; apply (proj1 AC eq_refl); lia|]. destruct (JL PG') as (blocks & tail & F2 & UT & LM).
      exists (lines (render true [Print opened; Print text])), blocks,
        (tail ++ lines (render true [Print (if result_not passed then "" else "Test passed!" ++ endl)]))%list.
      split; [exact UO|]. split; [exact F2|].
      assert (GV : plain_text (if result_not passed then "" else "Test passed!" ++ endl)).
      { destruct (result_not passed); [apply plain_text_nil|apply plain_text_line; plain_tac]. }
      split; [apply Forall_app; split; [exact UT|now apply lines_print]|].
      assert (GM : Forall good more) by (eapply run_good; eauto).
      assert (GT : Forall good [Print ("Stopped interface group." ++ endl)]) by (constructor; [apply plain_text_line; plain_tac|auto]).
      rewrite <- LX, <- app_assoc. rewrite lines_app; [|exact GS|apply app_good; [exact GO|]; apply app_good; [exact GM|]; constructor; auto].
      rewrite lines_app; [|exact GO|apply app_good; [exact GM|]; constructor; auto]. rewrite lines_app; [|exact GM|constructor; auto].
      match goal with |- context [render true (Print ?x :: destroy_traces g' ++ ?b)%list] =>
        change (Print x :: destroy_traces g' ++ b)%list with ([Print x] ++ (destroy_traces g' ++ b))%list;
        rewrite (lines_app [Print x] (destroy_traces g' ++ b)%list) by (try (constructor; auto); auto) end.
      rewrite (lines_app (destroy_traces g')) by auto. rewrite (lines_one "Stopped interface group.") by plain_tac.
      rewrite (traces_text said GS SS), TL', LM, (traces_text (destroy_traces g')) by auto. rewrite destroy_out.
      now rewrite <- !app_assoc.
  - match type of H with Some (Ret (_, ?y, ?x)) = _ => assert (out = x /\ w' = y) as (-> & ->) by (split; congruence) end.
    eexists. exists 0%nat. split; [exact AT|]. split; [cbn [w_trace]; unfold destroy; reflexivity|].
    rewrite <- LG, <- LG'. split; [|split; [|split; [reflexivity|split]]].
    + rewrite !trace_lines_app, TL', destroy_out. reflexivity.
    + intros _ Q. exfalso. assert (X2 : false = true); [|discriminate]. apply AC. intros k K. apply Q. lia.
    + split; [|lia]. rewrite !render_app. intros Q. exfalso. revert Q.
      rewrite (traces_off said) by (eapply start_traces; eauto). rewrite render_cons. intros Q. rewrite !append_assoc in Q. exact (OPN _ _ Q).
    + right. left. split; [lia|]. split; [intros Q; assert (X2 : false = true); [|discriminate]; apply AC; intros k K; apply Q; lia|].
      exists (lines (render true [Print opened; Print text])). split; [exact UO|].
      rewrite <- LX. rewrite lines_app by auto. rewrite lines_app by auto. now rewrite (traces_text said GS SS), TL', (traces_text (destroy_traces g')), destroy_out by auto.
Qed.

Lemma repeat_nil : forall A (x : A) n, repeat x n = [] -> n = 0%nat.
Proof. intros A x [|n] H; [reflexivity|discriminate]. Qed.

(** Also with traces, a start in which nothing comes up and nothing is refused says nothing. *)
Lemma main_silent_on : forall P fuel cl kernel opts send started last ticks w c w' out,
  wf_platform P -> steady started last ticks -> ticks_ok 255 ticks ->
  ~ late_long_device cl -> devices cl <> [] -> (List.length (devices cl) <= 255)%nat -> (List.length cl < fuel)%nat ->
  Forall plain_word (devices cl) -> Forall no_nul (devices cl) ->
  main_t P fuel (command_line cl) kernel opts send started last ticks w = Some (Ret (c, w', out)) ->
  exists l tr more, let m := Manager (devices cl) true true in
    attempts m (Some [Filter 0 0]) 1 kernel opts tr l /\ w_trace w' = (tr ++ more)%list /\
    (render true out = "" <-> up l = 0%nat /\ attempts_traces m l = []).
Proof.
  intros P fuel cl kernel opts send started last ticks w c w' out W SD TK NL NE LD F A ND H.
  destruct (main_out _ _ _ _ _ _ _ _ _ _ _ _ _ W SD TK NL NE LD F A ND H) as (l & tr & more & j & AT & WT & TR & _ & J0 & OFF & _).
  exists l, tr, more. cbv zeta in *. split; [exact AT|]. split; [exact WT|].
  pose proof (main_good_devices _ _ _ _ _ _ _ _ _ _ _ _ _ _ _ (proj2 (parse_documented cl fuel F) NL) A H) as G.
  destruct (good_lines out G) as (ls & X & Y & Z). rewrite (is_text_lines _ _ X) in TR. split.
  - intros E. rewrite E in X. assert (ls = []) as -> by (rewrite <- (is_text_lines _ _ X); reflexivity). cbn [List.filter] in TR. symmetry in TR.
    apply app_eq_nil in TR. destruct TR as (T1 & T2). apply app_eq_nil in T2. destruct T2 as (_ & T2). apply repeat_nil in T2. auto.
  - intros (U & E). rewrite U, E in TR. rewrite (J0 (or_introl U)) in TR. cbn [app firstn reading_traces flat_map repeat] in TR.
    apply OFF in U. assert (N : List.filter (fun l => negb (is_trace l)) ls = []).
    { rewrite <- (is_text_lines _ _ Y), U. reflexivity. }
    assert (ls = []).
    { destruct ls as [|x ls]; [reflexivity|]. cbn [List.filter] in *. destruct (is_trace x); discriminate. }
    subst ls. exact (proj1 X).
Qed.

Lemma stop_text : forall out w, lines (render true (snd (stopInterfaceGroup_t out w))) = repeat closing (List.length (owned out)).
Proof.
  intros [g|] w; [|reflexivity]. cbn [stopInterfaceGroup_t snd destroy_ptr_traces owned].
  rewrite traces_text; [rewrite map_length; apply destroy_out|auto|apply destroy_traces_traces].
Qed.
