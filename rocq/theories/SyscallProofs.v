(** Proofs about the system calls of the media layer. *)
From Coq Require Import ZArith Bool String Ascii List Lia.
From Verif Require Import Outcome ResultModel CInt CanFrameModel SocketCanModel SocketCanSpec SocketCanProofs GroupModel GroupSpec GroupProofs
  ManagerModel ManagerSpec ManagerProofs ClientModel ClientSpec ClientProofs SyscallModel SyscallSpec.
Import ListNotations.
Open Scope Z_scope.

(** * Refinement of ManagerModel and ClientModel *)

Lemma events_app : forall a b, events (a ++ b) = (events a ++ events b)%list.
Proof.
  induction a as [|[c [x y]] a IH]; intros; [reflexivity|].
  destruct c; cbn [app events]; rewrite ?IH; auto.
  destruct (0 <=? x); auto.
Qed.

Lemma filters_app : forall a b, filters_set (a ++ b) = (filters_set b ++ filters_set a)%list.
Proof.
  induction a as [|[c [x y]] a IH]; intros; cbn [app filters_set]; [rewrite app_nil_r; reflexivity|].
  destruct c; rewrite ?IH, ?app_assoc; auto.
Qed.

Lemma sock_app : forall a e fd, sock_at (a ++ [e]) fd = effect fd (sock_at a fd) e.
Proof. intros. unfold sock_at. rewrite fold_left_app. reflexivity. Qed.

Ltac calls := cbn [sys fst snd]; rewrite ?events_app, ?filters_app; cbn [events filters_set app]; rewrite ?app_nil_r.

Lemma open_refines : forall k name c o tr fd tr' f, open_socket k name c o tr = (fd, tr') ->
  exists a, a_socket a = fst (k tr (Sys_socket PF_CAN SOCK_RAW CAN_RAW)) /\ a_filter a = f /\
    openSocket name c o a (events tr) = (fd, events tr') /\ filters_set tr' = filters_set tr.
Proof.
  intros k name c o tr fd tr' f E. unfold open_socket, guarded, sys in E. unfold openSocket.
  destruct (k tr (Sys_socket PF_CAN SOCK_RAW CAN_RAW)) as [s e]. cbn [fst snd] in *.
  destruct (s <? 0) eqn:E0.
  { injection E as <- <-. exists (Answers s 0 0 0 0 0 0 f). cbn [a_socket a_filter]. rewrite E0. calls.
    replace (0 <=? s) with false by lia. rewrite app_nil_r. auto. }
  assert (0 <=? s = true) as P by lia.
  set (tr1 := (tr ++ [(Sys_socket PF_CAN SOCK_RAW CAN_RAW, (s, e))])%list) in *.
  assert (events tr1 = (events tr ++ [Opened s])%list) as V1 by (unfold tr1; calls; rewrite P; reflexivity).
  assert (filters_set tr1 = filters_set tr) as F1 by (unfold tr1; calls; reflexivity).
  clearbody tr1.
  (* CAN FD *)
  match type of E with context [if c then ?A else ?B] => destruct (if c then A else B) as [[cr ce] tr2] eqn:C end.
  assert (events tr2 = events tr1 /\ filters_set tr2 = filters_set tr1 /\ (c = false -> cr = 0)) as (V2 & F2 & Z2).
  { destruct c; cbn [fst snd] in C.
    - destruct (k tr1 _) as [u v]. inversion C; subst.
      calls. repeat split; auto; discriminate.
    - inversion C; subst; auto. }
  clear C.
  destruct (cr =? 0) eqn:E1; cbn [negb] in E.
  2:{ injection E as <- <-. exists (Answers s cr 0 0 0 0 0 f). cbn [a_socket a_filter a_canfd]. rewrite E0, E1.
      destruct c; [|specialize (Z2 eq_refl); lia]. cbn [negb andb]. calls. rewrite V2, V1, F2, F1. auto. }
  (* own messages *)
  match type of E with context [if o then ?A else ?B] => destruct (if o then A else B) as [[or oe] tr3] eqn:C end.
  assert (events tr3 = events tr2 /\ filters_set tr3 = filters_set tr2 /\ (o = false -> or = 0)) as (V3 & F3 & Z3).
  { destruct o; cbn [fst snd] in C.
    - destruct (k tr2 _) as [u v]. inversion C; subst.
      calls. repeat split; auto; discriminate.
    - inversion C; subst; auto. }
  clear C.
  destruct (or =? 0) eqn:E2; cbn [negb] in E.
  2:{ injection E as <- <-. exists (Answers s cr or 0 0 0 0 f). cbn [a_socket a_filter a_canfd a_own]. rewrite E0, E1, E2.
      destruct o; [|specialize (Z3 eq_refl); lia]. cbn [negb andb]. rewrite andb_false_r. calls. rewrite V3, V2, V1, F3, F2, F1. auto. }
  destruct (IFNAMSIZ <=? Z.of_nat (String.length name)) eqn:E3.
  { injection E as <- <-. exists (Answers s cr or 0 0 0 0 f). cbn [a_socket a_filter a_canfd a_own]. rewrite E0, E1, E2.
    cbn [negb]. rewrite !andb_false_r. calls. rewrite V3, V2, V1, F3, F2, F1. auto. }
  destruct (k tr3 _) as [r ifindex] eqn:K3. cbn [fst snd] in E.
  set (tr4 := (tr3 ++ _)%list) in *.
  assert (events tr4 = events tr3 /\ filters_set tr4 = filters_set tr3) as [V4 F4] by (unfold tr4; calls; auto). clearbody tr4.
  destruct ((r <? 0) || (ifindex <? 0)) eqn:E4.
  { injection E as <- <-. exists (Answers s cr or r ifindex 0 0 f). cbn [a_socket a_filter a_canfd a_own a_ioctl a_ifindex].
    rewrite E0, E1, E2, E4. cbn [negb]. rewrite !andb_false_r. calls. rewrite V4, V3, V2, V1, F4, F3, F2, F1. auto. }
  destruct (k tr4 _) as [b be] eqn:K4. cbn [fst snd] in E.
  set (tr5 := (tr4 ++ _)%list) in *.
  assert (events tr5 = events tr4 /\ filters_set tr5 = filters_set tr4) as [V5 F5] by (unfold tr5; calls; auto). clearbody tr5.
  destruct (b <? 0) eqn:E5.
  { injection E as <- <-. exists (Answers s cr or r ifindex b 0 f). cbn [a_socket a_filter a_canfd a_own a_ioctl a_ifindex a_bind].
    rewrite E0, E1, E2, E4, E5. cbn [negb]. rewrite !andb_false_r. calls. rewrite V5, V4, V3, V2, V1, F5, F4, F3, F2, F1. auto. }
  match type of E with context [k ?t (Sys_so_error s)] => set (tr8 := t) in * end.
  assert (events tr8 = events tr5 /\ filters_set tr8 = filters_set tr5) as [V8 F8].
  { unfold tr8. calls. destruct (k _ _), (k _ _), (k _ _); cbn [events filters_set]; rewrite ?app_nil_r; auto. }
  clearbody tr8.
  destruct (k tr8 _) as [x se] eqn:K8. cbn [fst snd] in E.
  destruct (se =? 0) eqn:E6; cbn [negb] in E; injection E as <- <-; exists (Answers s cr or r ifindex b se f);
    cbn [a_socket a_filter a_canfd a_own a_ioctl a_ifindex a_bind a_error];
    rewrite E0, E1, E2, E4, E5, E6; cbn [negb]; rewrite !andb_false_r; calls; rewrite V8, V5, V4, V3, V2, V1, F8, F5, F4, F3, F2, F1; auto.
Qed.

Lemma configure_refines : forall k fd configs num tr r tr', configure_filters k fd configs num tr = Ret (r, tr') ->
  configureFilters (fun fs len => fst (k tr (Sys_filter fd fs len))) fd configs num (filters_set tr) = Ret (r, filters_set tr') /\
  events tr' = events tr.
Proof.
  intros k fd configs num tr r tr' E. unfold configure_filters in E. unfold configureFilters, install.
  change sizeof_can_filter with 8 in *.
  destruct (_ && _ && _); [injection E as <- <-; auto|].
  destruct (num =? 0)%nat.
  - unfold sys in E. destruct (k tr _) as [x e]. cbn [fst]. injection E as <- <-. calls. destruct (x =? 0); cbn [negb app]; auto.
  - destruct configs as [cs|]; [|discriminate]. destruct (convert_filters num cs) as [fs|]; [|discriminate].
    cbn [bind] in *. unfold sys in E. destruct (k tr _) as [x e]. cbn [fst]. injection E as <- <-. calls.
    destruct (x =? 0); cbn [negb app]; auto.
Qed.

Lemma create_refines : forall k m i name configs num tr r o tr', create_interface k m i name configs num tr = Ret (r, o, tr') ->
  exists a, a_socket a = fst (k tr (Sys_socket PF_CAN SOCK_RAW CAN_RAW)) /\
    createInterface m i name configs num a (world_of tr) = Ret (r, o, world_of tr').
Proof.
  intros k m i name configs num tr r o tr' E. unfold create_interface in E.
  destruct (open_socket k name (m_canfd m) (m_own m) tr) as [fd tr1] eqn:O.
  destruct (open_refines k name _ _ tr fd tr1 (fun fs len => fst (k tr1 (Sys_filter fd fs len))) O) as (a & A & F & S & L).
  exists a. split; [exact A|]. unfold createInterface, world_of. cbn [w_trace w_filters]. rewrite S.
  destruct (fd <=? 0).
  { injection E as <- <- <-. rewrite L. reflexivity. }
  rewrite F. destruct (configure_filters k fd configs num tr1) as [[x tr2]|] eqn:C; [|discriminate].
  apply configure_refines in C. destruct C as [C V]. rewrite L in C. rewrite C. cbn [bind] in *.
  destruct (result_not x); injection E as <- <- <-; unfold guarded; calls; rewrite ?V; reflexivity.
Qed.

Lemma start_loop_ext : forall m configs num kernel kernel' fuel i t acc w,
  (forall t' ev, (t <= t')%nat -> kernel t' ev = kernel' t' ev) ->
  start_loop fuel i t m configs num kernel acc w = start_loop fuel i t m configs num kernel' acc w.
Proof.
  induction fuel as [|fuel IH]; intros i t acc w H; [reflexivity|]. cbn [start_loop].
  destruct (_ <? _); [|reflexivity]. destruct (nth_error _ _) as [name|]; [|reflexivity].
  rewrite (H t) by lia. destruct (createInterface _ _ _ _ _ _ _) as [[[r o] w']|]; [|reflexivity].
  apply IH. intros. apply H. lia.
Qed.

Definition event_dec : forall a b : event, {a = b} + {a <> b}.
Proof. decide equality; apply Z.eq_dec. Defined.

Lemma replay_open : forall live tr now d, replay live (events tr) = Some now -> In d now -> In d live \/ is_open tr d.
Proof.
  intros live tr. induction tr as [|[c [x y]] tr IH] using rev_ind; intros now d R I.
  - cbn in R. injection R as <-. auto.
  - rewrite events_app, replay_app in R. destruct (replay live (events tr)) as [l|]; [|discriminate].
    assert (In d l -> In d live \/ is_open tr d) as H by (intros; eapply IH; eauto). clear IH. unfold is_open in *.
    rewrite sock_app.
    assert (events [(c, (x, y))] = [] \/ (exists t f p, c = Sys_socket f t p) \/ (exists fd, c = Sys_close fd)) as [C|[C|C]]
      by (destruct c; eauto 6).
    + rewrite C in R. cbn in R. injection R as <-. destruct (H I) as [?|O]; [auto|]. right.
      destruct c; cbn [effect]; try exact O;
        try (destruct (_ && _); [|exact O]; destruct (sock_at tr d); cbn; congruence).
      discriminate.
    + destruct C as (t & f & p & ->). cbn in R |- *. destruct (0 <=? x) eqn:E.
      * cbn in R. destruct (existsb _ l); [discriminate|]. injection R as <-. destruct I as [->|I].
        -- right. rewrite Z.eqb_refl. cbn. discriminate.
        -- destruct (H I) as [?|O]; [auto|right]. destruct (x =? d); cbn; [discriminate|exact O].
      * rewrite andb_false_r. injection R as <-. auto.
    + destruct C as (fd & ->). cbn in R |- *. destruct (existsb _ l); [|discriminate]. injection R as <-.
      apply in_remove in I. destruct I as [I N]. destruct (H I) as [?|O]; [auto|right].
      destruct (fd =? d) eqn:E; [lia|exact O].
Qed.

Definition nobody : answers := Answers (-1) 0 0 0 0 0 0 (fun _ _ => 0).

Lemma create_all_refines : forall live k m configs num, proper live k -> forall fuel i t acc tr acc' tr',
  create_all fuel i k m configs num acc tr = Some (Ret (acc', tr')) ->
  exists kernel, fresh_descriptors live kernel /\
    start_loop fuel i t m configs num kernel acc (world_of tr) = Some (Ret (acc', world_of tr')).
Proof.
  intros live k m configs num PR. induction fuel as [|fuel IH]; intros i t acc tr acc' tr' E; [discriminate|].
  cbn [create_all start_loop] in *. destruct (i <? Z.of_nat (length (m_required m))).
  2:{ injection E as <- <-. exists (fun _ _ => nobody). split; [|reflexivity]. intros ? ? ? ?. cbn. lia. }
  destruct (nth_error (m_required m) (Z.to_nat i)) as [name|]; [|discriminate].
  destruct (create_interface k m i name configs num tr) as [[[r o] tr1]|] eqn:C; [|discriminate].
  destruct (create_refines _ _ _ _ _ _ _ _ _ _ C) as (a & A & R).
  destruct (IH _ (S t) _ _ _ _ E) as (kernel & FR & L). clear IH.
  exists (fun t' ev => if (t' =? t)%nat then (if list_eq_dec event_dec ev (events tr) then a else nobody) else kernel t' ev). split.
  - intros t' ev now RP. destruct (t' =? t)%nat; [|apply FR; exact RP].
    destruct (list_eq_dec _ _ _) as [->|]; [|cbn; lia]. rewrite A. intros NN I.
    destruct (PR tr PF_CAN SOCK_RAW CAN_RAW NN) as [NL NO]. destruct (replay_open _ _ _ _ RP I); auto.
  - unfold world_of at 1. cbn [w_trace]. rewrite Nat.eqb_refl. destruct (list_eq_dec _ _ _) as [_|N]; [|congruence].
    rewrite R. rewrite <- L. apply start_loop_ext. intros t' ev LE. replace (t' =? t)%nat with false; [reflexivity|].
    symmetry. apply Nat.eqb_neq. lia.
Qed.

Lemma close_events : forall k g tr, events (close_group k g tr) = destroy g (events tr) /\ filters_set (close_group k g tr) = filters_set tr.
Proof.
  intros k. unfold close_group, destroy. induction g as [|s g IH]; intros tr; cbn [fold_left map].
  - rewrite app_nil_r. auto.
  - destruct (IH (snd (sys k (Sys_close (getSocketDescriptor s)) tr))) as [A B]. rewrite A, B. unfold sys. calls.
    rewrite <- app_assoc. auto.
Qed.

Lemma close_world : forall k p tr, world_of (close_ptr k p tr) = World (destroy_ptr p (events tr)) (filters_set tr).
Proof.
  intros k [g|] tr; unfold world_of; cbn [close_ptr destroy_ptr]; [|reflexivity].
  destruct (close_events k g tr) as [-> ->]. reflexivity.
Qed.

Lemma start_refines : forall live k m configs num, proper live k -> forall fuel out tr r p' tr',
  start_group fuel k m configs num out tr = Some (Ret (r, p', tr')) ->
  exists kernel, fresh_descriptors live kernel /\
    startInterfaceGroup fuel m configs num kernel out (world_of tr) = Some (Ret (r, p', world_of tr')).
Proof.
  intros live k m configs num PR fuel out tr r p' tr' E. unfold start_group in E.
  destruct (create_all fuel 0 k m configs num [] tr) as [[[acc tr1]|]|] eqn:C; try discriminate.
  destruct (create_all_refines _ _ _ _ _ PR _ _ O _ _ _ _ C) as (kernel & F & L).
  exists kernel. split; [exact F|]. unfold startInterfaceGroup. rewrite L.
  destruct acc as [|s acc]; injection E as <- <- <-; [reflexivity|]. rewrite close_world. reflexivity.
Qed.

Lemma reconfigure_ext : forall g configs num ans ans' fuel i t log,
  (forall t', (t <= t')%nat -> ans t' = ans' t') ->
  reconfigure_loop fuel i t g ans configs num log = reconfigure_loop fuel i t g ans' configs num log.
Proof.
  induction fuel as [|fuel IH]; intros i t log H; [reflexivity|]. cbn [reconfigure_loop].
  destruct (_ <? _); [|reflexivity]. destruct (nth_error _ _) as [s|]; [|reflexivity].
  rewrite (H t) by lia. destruct (configureFilters _ _ _ _ _) as [[r log']|]; [|reflexivity].
  destruct (result_not r); [reflexivity|]. apply IH. intros. apply H. lia.
Qed.

Lemma reconfigure_refines : forall k g configs num fuel i t tr r tr',
  reconfigure fuel i k g configs num tr = Some (Ret (r, tr')) ->
  events tr' = events tr /\
  exists ans, reconfigure_loop fuel i t g ans configs num (filters_set tr) = Some (Ret (r, filters_set tr')).
Proof.
  intros k g configs num. induction fuel as [|fuel IH]; intros i t tr r tr' E; [discriminate|].
  cbn [reconfigure reconfigure_loop] in *. destruct (i <? Z.of_nat (length g)).
  2:{ injection E as <- <-. split; [reflexivity|]. exists (fun _ _ _ => 0). reflexivity. }
  destruct (nth_error g (Z.to_nat i)) as [s|]; [|discriminate].
  destruct (configure_filters k (getSocketDescriptor s) configs num tr) as [[x tr1]|] eqn:C; [|discriminate].
  apply configure_refines in C. destruct C as [C V]. destruct (result_not x) eqn:N.
  - injection E as <- <-. split; [exact V|].
    exists (fun _ fs len => fst (k tr (Sys_filter (getSocketDescriptor s) fs len))). rewrite C, N. reflexivity.
  - destruct (IH _ (S t) _ _ _ E) as (V' & ans & L). split; [congruence|].
    exists (fun t' => if (t' =? t)%nat then (fun fs len => fst (k tr (Sys_filter (getSocketDescriptor s) fs len))) else ans t').
    rewrite Nat.eqb_refl, C, N. rewrite <- L. apply reconfigure_ext. intros t' LE.
    replace (t' =? t)%nat with false; [reflexivity|]. symmetry. apply Nat.eqb_neq. lia.
Qed.

Lemma step_refines : forall P live k m, proper live k -> forall fuel o p tr r p' tr',
  permitted k o p tr -> step P fuel k m o p tr = Some (Ret (Answered r, p', tr')) ->
  exists c, same_call o c /\ legal live c (Client p (world_of tr)) /\
    perform fuel m c (Client p (world_of tr)) = Some (Ret (r, Client p' (world_of tr'))).
Proof.
  intros P live k m PR fuel o p tr r p' tr' OK E. destruct o as [configs num| |configs num|i fs n|msgs i out|timeout ig rev];
    cbn [step permitted] in *.
  - destruct (start_group fuel k m configs num p tr) as [[[[x q] tq]|]|] eqn:S; try discriminate. injection E as <- <- <-.
    destruct (start_refines _ _ _ _ _ PR _ _ _ _ _ _ S) as (kernel & F & L).
    exists (Start configs num kernel). cbn [same_call legal perform cl_group cl_world]. rewrite L. auto.
  - injection E as <- <- <-. exists Stop. cbn [same_call legal perform cl_group cl_world stopInterfaceGroup]. rewrite close_world. auto.
  - destruct p as [g|]; [|discriminate].
    destruct (reconfigure fuel 0 k g configs num tr) as [[[x tq]|]|] eqn:S; try discriminate. injection E as <- <- <-.
    destruct (reconfigure_refines _ _ _ _ _ _ O _ _ _ S) as (V & ans & L).
    exists (Reconfigure ans configs num). cbn [same_call legal perform cl_group cl_world].
    unfold world_of, reconfigureFilters. cbn [w_filters w_trace]. rewrite L, V. tauto.
  - destruct p as [g|]; [|discriminate].
    exists (Write (fun sent => k tr (Sys_sendmmsg (match nth_error g (Z.to_nat i) with Some s => getSocketDescriptor s | None => 0 end)
                                       sent (Z.of_nat n mod 2 ^ 32) 0)) i fs n).
    cbn [same_call legal perform cl_group cl_world]. split; [auto|]. split; [exact OK|].
    unfold group_write_call, group_write in *. destruct (Z.of_nat (length g) <=? i).
    { cbn [bind] in *. injection E as <- <- <-. reflexivity. }
    destruct (nth_error g (Z.to_nat i)) as [s|]; [|discriminate]. unfold write_call in E.
    destruct (write _ s fs n) as [w|]; [|discriminate]. cbn [bind] in *. injection E as <- <- <-.
    unfold world_of. destruct (wr_sent w); unfold sys; calls; reflexivity.
  - destruct p as [g|]; [|discriminate]. destruct OK as (_ & RI & FT & KT & RO). unfold group_read_call in E.
    destruct (Z.of_nat (length g) <=? i) eqn:LE.
    { cbn [bind] in E. injection E as <- <- <-. exists (Read 0 0 msgs i out). cbn [same_call legal perform cl_group cl_world].
      split; [auto|]. split.
      - split; [discriminate|]. split; [exact RI|]. split; [exact FT|]. split; [lia|]. split; [exact KT|lia].
      - unfold group_read. rewrite LE. reflexivity. }
    destruct (nth_error g (Z.to_nat i)) as [s|] eqn:NE; [|discriminate]. specialize (RO g s eq_refl NE). unfold read_call, sys in E.
    destruct (k tr _) as [res errno] eqn:K. cbn [fst] in RO.
    exists (Read res errno msgs i out). cbn [same_call legal perform cl_group cl_world]. split; [auto|]. split.
    + split; [discriminate|]. split; [exact RI|]. split; [exact FT|exact RO].
    + unfold group_read. rewrite LE, NE. destruct (read res errno msgs s out) as [x|]; [|discriminate]. cbn [bind] in *.
      injection E as <- <- <-. unfold world_of. calls. reflexivity.
  - destruct p as [g|]; [|discriminate]. destruct (select_call P k rev g timeout ig tr) as [[? ?]|]; discriminate.
Qed.

Lemma select_world : forall P fuel k m t i v p tr r p' tr',
  step P fuel k m (Op_select t i v) p tr = Some (Ret (r, p', tr')) -> (exists x, r = Selected x) /\ p' = p /\ world_of tr' = world_of tr.
Proof.
  intros P fuel k m t i v p tr r p' tr' E. cbn [step] in E. destruct p as [g|]; [|discriminate]. unfold select_call in E.
  destruct (select _ _ _ _ _) as [[x req]|]; [|discriminate]. cbn [bind] in E. injection E as <- <- <-.
  repeat split; eauto. unfold world_of, sys. calls. reflexivity.
Qed.

Lemma run_refines : forall P live k m h p tr, proper live k -> run P k m h p tr ->
  exists h', same_calls h h' /\ history live m h' (Client p (world_of tr)).
Proof.
  intros P live k m h p tr PR R. induction R as [|h p tr o fuel r p' tr' R (h' & S & H) OK E].
  - exists []. split; [constructor|apply h_begin].
  - destruct o; try (destruct r as [r|r];
      [destruct (step_refines _ _ _ _ PR _ _ _ _ _ _ _ OK E) as (c & SC & L & PF); exists ((c, r) :: h'); split;
        [constructor; auto|eapply h_call; eauto]|]).
    + cbn in E. destruct (start_group _ _ _ _ _ _ _) as [[[[? ?] ?]|]|]; discriminate.
    + cbn in E. discriminate.
    + cbn in E. destruct p; [|discriminate]. destruct (reconfigure _ _ _ _ _ _ _) as [[[? ?]|]|]; discriminate.
    + cbn in E. destruct p; [|discriminate]. destruct (group_write_call _ _ _ _ _ _) as [[[? ?] ?]|]; discriminate.
    + cbn in E. destruct p; [|discriminate]. destruct (group_read_call _ _ _ _ _ _) as [[[? ?] ?]|]; discriminate.
    + apply select_world in E. destruct E as (_ & -> & ->). exists h'. split; [constructor; auto|exact H].
Qed.

(** * The sockets *)

Definition each (Q : trace -> syscall -> Prop) (tr : trace) : Prop := forall pre c a post, tr = (pre ++ (c, a) :: post)%list -> Q pre c.

Lemma each_nil : forall Q, each Q [].
Proof. intros Q pre c a post E. destruct pre; discriminate. Qed.

Lemma each_snoc : forall Q tr c a, each Q tr -> Q tr c -> each Q (tr ++ [(c, a)]).
Proof.
  intros Q tr c a H N pre c' a' post E. destruct (@exists_last _ ((c', a') :: post)) as (l & x & L); [discriminate|].
  rewrite L, app_assoc in E. apply app_inj_tail in E. destruct E as [E <-].
  destruct l as [|y l].
  - cbn in L. injection L as -> -> ->. rewrite app_nil_r in E. subst. exact N.
  - cbn in L. injection L as <- L. apply (H pre c' a' l). exact E.
Qed.

Definition shape (c : syscall) : Prop :=
  match c with
  | Sys_socket _ t _ => t = SOCK_RAW
  | Sys_sendmmsg _ _ _ f => f = 0
  | Sys_recvmmsg _ _ f => f = MSG_DONTWAIT
  | _ => True
  end.
Definition fine (tr : trace) (c : syscall) : Prop := (forall d, In d (uses c) -> is_open tr d) /\ shape c.

Definition opened (tr0 : trace) (s : Z) (tr : trace) (st : sock) : Prop :=
  each fine tr /\ sock_at tr s = Some st /\ forall d, d <> s -> sock_at tr d = sock_at tr0 d.

Lemma opened_call : forall tr0 s tr st c a st', opened tr0 s tr st -> uses c = [s] -> shape c -> effect s (Some st) (c, a) = Some st' ->
  (forall d x, d <> s -> effect d x (c, a) = x) -> opened tr0 s (tr ++ [(c, a)]) st'.
Proof.
  intros tr0 s tr st c a st' (E & S & O) U SH EF OT. split; [|split].
  - apply each_snoc; [exact E|]. split; [|exact SH]. rewrite U. intros d [<-|[]]. unfold is_open. congruence.
  - rewrite sock_app, S. exact EF.
  - intros d N. rewrite sock_app, OT by exact N. apply O. exact N.
Qed.

Lemma opened_close : forall tr0 s tr st a, opened tr0 s tr st -> sock_at tr0 s = None ->
  each fine (tr ++ [(Sys_close s, a)]) /\ forall d, sock_at (tr ++ [(Sys_close s, a)]) d = sock_at tr0 d.
Proof.
  intros tr0 s tr st a (E & S & O) N. split.
  - apply each_snoc; [exact E|]. split; [|exact Logic.I]. intros d [<-|[]]. unfold is_open. congruence.
  - intros d. rewrite sock_app. cbn [effect]. destruct a. destruct (s =? d) eqn:X.
    + replace d with s by lia. auto.
    + apply O. lia.
Qed.

Lemma text_zeros : forall n, text (repeat zero n) = EmptyString.
Proof. destruct n; reflexivity. Qed.

Lemma strncpy_text : forall name n, no_nul name -> (String.length name <= n)%nat ->
  text (strncpy (repeat zero n) name (String.length name)) = name.
Proof.
  induction name as [|c name IH]; intros n NN L.
  - destruct n; [reflexivity|]. cbn. reflexivity.
  - destruct NN as [NC NN]. destruct n as [|n]; [cbn in L; lia|]. cbn [String.length repeat strncpy].
    destruct (Ascii.eqb c zero) eqn:E; [apply Ascii.eqb_eq in E; contradiction|]. cbn [text]. rewrite E.
    rewrite IH; auto. cbn in L. lia.
Qed.

(** What openSocket leaves behind when it succeeds. *)
Definition ready (k : system) (devices : string -> Z -> Prop) (c o : bool) (name : string) (st : sock) : Prop :=
  so_kind st = (PF_CAN, SOCK_RAW, CAN_RAW) /\
  (exists i, so_bound st = Some (AF_CAN, i) /\ (no_nul name -> devices name i)) /\
  (grants k -> option_value SOL_SOCKET SO_TIMESTAMP (so_options st) = Some 1 /\ option_value SOL_SOCKET SO_RXQ_OVFL (so_options st) = Some 1 /\
               option_value SOL_CAN_RAW CAN_RAW_ERR_FILTER (so_options st) = Some CAN_ERR_MASK) /\
  option_value SOL_CAN_RAW CAN_RAW_FD_FRAMES (so_options st) = (if c then Some 1 else None) /\
  option_value SOL_CAN_RAW CAN_RAW_RECV_OWN_MSGS (so_options st) = (if o then Some 1 else None).

Lemma others_opt : forall d s x l o v a, d <> s -> effect d x (Sys_setsockopt s l o v, a) = x.
Proof. intros. destruct a. cbn. replace (s =? d) with false by lia. reflexivity. Qed.

Lemma opened_setsockopt : forall tr0 s tr st l o v a, opened tr0 s tr st -> exists st',
  opened tr0 s (tr ++ [(Sys_setsockopt s l o v, a)]) st' /\ so_kind st' = so_kind st /\ so_bound st' = so_bound st /\
  so_filters st' = so_filters st /\ so_options st' = if fst a =? 0 then (l, o, v) :: so_options st else so_options st.
Proof.
  intros tr0 s tr st l o v [x y] O. cbn [fst].
  exists (if x =? 0 then Sock (so_kind st) (so_bound st) ((l, o, v) :: so_options st) (so_filters st) else st). split.
  - eapply opened_call; [exact O|reflexivity|exact Logic.I| |intros; apply others_opt; auto].
    cbn [effect]. rewrite Z.eqb_refl. destruct (x =? 0); reflexivity.
  - destruct (x =? 0); auto.
Qed.

Lemma option_skip : forall l o l' o' v t, (l, o) <> (l', o') -> option_value l o ((l', o', v) :: t) = option_value l o t.
Proof.
  intros. cbn. destruct ((l =? l') && (o =? o')) eqn:E; [|reflexivity]. exfalso. apply H. f_equal; lia.
Qed.

Lemma open_state : forall live k devices name c o tr fd tr', proper live k -> looks_up devices k -> each fine tr ->
  open_socket k name c o tr = (fd, tr') ->
  (fd < 0 /\ each fine tr' /\ forall d, sock_at tr' d = sock_at tr d) \/
  (0 <= fd /\ ~ In fd live /\ sock_at tr fd = None /\ exists st, opened tr fd tr' st /\ ready k devices c o name st).
Proof.
  intros live k devices name c o tr fd tr' PR LK EF E. unfold open_socket, guarded, sys in E. cbn [fst snd] in E.
  pose proof (PR tr PF_CAN SOCK_RAW CAN_RAW) as PR0. cbn zeta in PR0. clear PR.
  destruct (k tr (Sys_socket PF_CAN SOCK_RAW CAN_RAW)) as [s e]. cbn [fst] in PR0.
  destruct (s <? 0) eqn:E0.
  { injection E as <- <-. left. split; [lia|]. split.
    - apply each_snoc; [exact EF|]. split; [intros d []|reflexivity].
    - intros d. rewrite sock_app. cbn. replace (0 <=? s) with false by lia. rewrite andb_false_r. reflexivity. }
  destruct PR0 as [NL NO]; [lia|]. assert (sock_at tr s = None) as SN.
  { unfold is_open in NO. destruct (sock_at tr s); [|reflexivity]. exfalso. apply NO. discriminate. }
  set (tr1 := (tr ++ [(Sys_socket PF_CAN SOCK_RAW CAN_RAW, (s, e))])%list) in *.
  assert (opened tr s tr1 (Sock (PF_CAN, SOCK_RAW, CAN_RAW) None [] None)) as O1.
  { unfold tr1. split; [|split].
    - apply each_snoc; [exact EF|]. split; [intros d []|reflexivity].
    - rewrite sock_app. cbn. rewrite Z.eqb_refl. replace (0 <=? s) with true by lia. reflexivity.
    - intros d N. rewrite sock_app. cbn. replace (s =? d) with false by lia. reflexivity. }
  clearbody tr1.
  assert (forall t st, opened tr s t st -> (-1, (t ++ [(Sys_close s, k t (Sys_close s))])%list) = (fd, tr') ->
    fd < 0 /\ each fine tr' /\ forall d, sock_at tr' d = sock_at tr d) as CL.
  { intros t st O C. injection C as <- <-. split; [lia|]. eapply opened_close; eauto. }
  (* CAN FD *)
  match type of E with context [if c then ?A else ?B] => destruct (if c then A else B) as [[cr ce] tr2] eqn:C end.
  assert (exists st2, opened tr s tr2 st2 /\ so_kind st2 = (PF_CAN, SOCK_RAW, CAN_RAW) /\ so_bound st2 = None /\
    (cr = 0 -> so_options st2 = if c then [(SOL_CAN_RAW, CAN_RAW_FD_FRAMES, 1)] else [])) as (st2 & O2 & K2 & B2 & P2).
  { destruct c; cbn [fst snd] in C.
    - destruct (k tr1 _) as [u v]. injection C as <- <- <-.
      destruct (opened_setsockopt _ _ _ _ SOL_CAN_RAW CAN_RAW_FD_FRAMES 1 (u, v) O1) as (st2 & O2 & KD & B & _ & OP).
      exists st2. split; [exact O2|]. split; [exact KD|]. split; [exact B|]. intros ->. exact OP.
    - injection C as <- <- <-. eexists. split; [exact O1|]. auto. }
  clear C O1 tr1.
  destruct (cr =? 0) eqn:E1; cbn [negb] in E; [|left; eapply CL; eauto]. specialize (P2 ltac:(lia)).
  (* own messages *)
  match type of E with context [if o then ?A else ?B] => destruct (if o then A else B) as [[or oe] tr3] eqn:C end.
  assert (exists st3, opened tr s tr3 st3 /\ so_kind st3 = (PF_CAN, SOCK_RAW, CAN_RAW) /\ so_bound st3 = None /\
    (or = 0 -> so_options st3 = if o then (SOL_CAN_RAW, CAN_RAW_RECV_OWN_MSGS, 1) :: so_options st2 else so_options st2))
    as (st3 & O3 & K3 & B3 & P3).
  { destruct o; cbn [fst snd] in C.
    - destruct (k tr2 _) as [u v]. injection C as <- <- <-.
      destruct (opened_setsockopt _ _ _ _ SOL_CAN_RAW CAN_RAW_RECV_OWN_MSGS 1 (u, v) O2) as (st3 & O3 & KD & B & _ & OP).
      exists st3. split; [exact O3|]. split; [congruence|]. split; [congruence|]. intros ->. exact OP.
    - injection C as <- <- <-. exists st2. auto. }
  clear C O2 tr2 B2.
  destruct (or =? 0) eqn:E2; cbn [negb] in E; [|left; eapply CL; eauto]. specialize (P3 ltac:(lia)).
  destruct (IFNAMSIZ <=? Z.of_nat (String.length name)) eqn:E3; [left; eapply CL; eauto|].
  pose proof (LK tr3 s (strncpy (repeat zero 16) name (String.length name))) as DV.
  assert (no_nul name -> text (strncpy (repeat zero 16) name (String.length name)) = name) as TX.
  { intros NN. apply strncpy_text; [exact NN|]. unfold IFNAMSIZ in E3. lia. }
  destruct (k tr3 (Sys_ioctl _ _ _)) as [r ifindex]. cbn [fst snd] in *.
  set (tr4 := (tr3 ++ _)%list) in *.
  assert (opened tr s tr4 st3) as O4.
  { unfold tr4. eapply opened_call; [exact O3|reflexivity|exact Logic.I|reflexivity|reflexivity]. }
  clearbody tr4. clear O3 tr3.
  destruct ((r <? 0) || (ifindex <? 0)) eqn:E4; [left; eapply CL; eauto|].
  specialize (DV ltac:(lia)).
  destruct (k tr4 _) as [b be]. cbn [fst snd] in E.
  set (tr5 := (tr4 ++ _)%list) in *.
  assert (exists st5, opened tr s tr5 st5 /\ so_kind st5 = so_kind st3 /\ so_options st5 = so_options st3 /\
    (0 <= b -> so_bound st5 = Some (AF_CAN, ifindex))) as (st5 & O5 & K5 & P5 & B5).
  { exists (if 0 <=? b then Sock (so_kind st3) (Some (AF_CAN, ifindex)) (so_options st3) (so_filters st3) else st3). split.
    - unfold tr5. eapply opened_call; [exact O4|reflexivity|exact Logic.I| |].
      + cbn. rewrite Z.eqb_refl. destruct (0 <=? b); reflexivity.
      + intros. cbn. replace (s =? d) with false by lia. reflexivity.
    - destruct (0 <=? b) eqn:X; cbn; split; auto; split; auto; lia. }
  clearbody tr5. clear O4 tr4.
  destruct (b <? 0) eqn:E5; [left; eapply CL; eauto|]. specialize (B5 ltac:(lia)).
  destruct (opened_setsockopt _ _ _ _ SOL_SOCKET SO_TIMESTAMP 1 (k tr5 (Sys_setsockopt s SOL_SOCKET SO_TIMESTAMP 1)) O5)
    as (st6 & O6 & K6 & B6 & _ & P6).
  set (tr6 := (tr5 ++ [(Sys_setsockopt s SOL_SOCKET SO_TIMESTAMP 1, _)])%list) in *.
  destruct (opened_setsockopt _ _ _ _ SOL_SOCKET SO_RXQ_OVFL 1 (k tr6 (Sys_setsockopt s SOL_SOCKET SO_RXQ_OVFL 1)) O6)
    as (st7 & O7 & K7 & B7 & _ & P7).
  set (tr7 := (tr6 ++ [(Sys_setsockopt s SOL_SOCKET SO_RXQ_OVFL 1, _)])%list) in *.
  destruct (opened_setsockopt _ _ _ _ SOL_CAN_RAW CAN_RAW_ERR_FILTER CAN_ERR_MASK
    (k tr7 (Sys_setsockopt s SOL_CAN_RAW CAN_RAW_ERR_FILTER CAN_ERR_MASK)) O7) as (st8 & O8 & K8 & B8 & _ & P8).
  set (tr8 := (tr7 ++ [(Sys_setsockopt s SOL_CAN_RAW CAN_RAW_ERR_FILTER CAN_ERR_MASK, _)])%list) in *.
  assert (opened tr s (tr8 ++ [(Sys_so_error s, k tr8 (Sys_so_error s))]) st8) as O9.
  { eapply opened_call; [exact O8|reflexivity|exact Logic.I|reflexivity|reflexivity]. }
  assert (ready k devices c o name st8) as RD.
  { split; [congruence|]. split; [|split; [|split]].
    - exists ifindex. split; [congruence|]. intros NN. rewrite TX in DV by exact NN. exact DV.
    - intros G. rewrite P8, P7, P6, !G. auto.
    - rewrite P8, P7, P6, P5, P3, P2. destruct c, o; do 3 destruct (fst _ =? 0); reflexivity.
    - rewrite P8, P7, P6, P5, P3, P2. destruct c, o; do 3 destruct (fst _ =? 0); reflexivity. }
  clearbody tr8. destruct (k tr8 (Sys_so_error s)) as [x se]. cbn [fst snd] in E.
  destruct (se =? 0) eqn:E6; cbn [negb] in E; [|left; eapply CL; eauto].
  injection E as <- <-. right. split; [lia|]. split; [exact NL|]. split; [exact SN|]. exists st8. auto.
Qed.

Lemma configure_state : forall k fd configs num tr0 tr st r tr', opened tr0 fd tr st ->
  configure_filters k fd configs num tr = Ret (r, tr') -> exists st', opened tr0 fd tr' st' /\ so_kind st' = so_kind st /\
    so_bound st' = so_bound st /\ so_options st' = so_options st.
Proof.
  intros k fd configs num tr0 tr st r tr' O E. unfold configure_filters in E.
  destruct (_ && _ && _); [injection E as <- <-; eauto|].
  assert (forall fs len a, exists st', opened tr0 fd (tr ++ [(Sys_filter fd fs len, a)]) st' /\ so_kind st' = so_kind st /\
    so_bound st' = so_bound st /\ so_options st' = so_options st) as A.
  { intros fs len [x y].
    exists (if x =? 0 then Sock (so_kind st) (so_bound st) (so_options st) (Some (firstn (Z.to_nat (len / 8)) fs)) else st). split.
    - eapply opened_call; [exact O|reflexivity|exact Logic.I| |].
      + cbn. rewrite Z.eqb_refl. destruct (x =? 0); reflexivity.
      + intros. cbn. replace (fd =? d) with false by lia. reflexivity.
    - destruct (x =? 0); auto. }
  destruct (num =? 0)%nat.
  - unfold sys in E. specialize (A [] 0 (k tr (Sys_filter fd [] 0))). destruct (k tr _) as [x e]. injection E as <- <-. exact A.
  - destruct configs as [cs|]; [|discriminate]. destruct (convert_filters num cs) as [fs|]; [|discriminate]. cbn [bind] in E.
    unfold sys in E. specialize (A fs (sizeof_can_filter * Z.of_nat (length fs) mod 2 ^ 32) (k tr (Sys_filter fd fs (sizeof_can_filter * Z.of_nat (length fs) mod 2 ^ 32)))).
    destruct (k tr _) as [x e]. injection E as <- <-. exact A.
Qed.

Lemma create_state : forall live k devices m i name configs num tr r o tr', In 0 live -> proper live k -> looks_up devices k ->
  each fine tr -> create_interface k m i name configs num tr = Ret (r, o, tr') ->
  each fine tr' /\
  match o with
  | None => forall d, sock_at tr' d = sock_at tr d
  | Some s => r = Success /\ if_name s = name /\ sock_at tr (if_fd s) = None /\
              (forall d, d <> if_fd s -> sock_at tr' d = sock_at tr d) /\
              exists st, sock_at tr' (if_fd s) = Some st /\ ready k devices (m_canfd m) (m_own m) name st
  end.
Proof.
  intros live k devices m i name configs num tr r o tr' Z0 PR LK EF E. unfold create_interface in E.
  destruct (open_socket k name (m_canfd m) (m_own m) tr) as [fd tr1] eqn:O.
  destruct (open_state live k devices name _ _ _ _ _ PR LK EF O) as [(F & E1 & S1)|(F & NL & SN & st & OP & RD)].
  { replace (fd <=? 0) with true in E by lia. injection E as <- <- <-. auto. }
  assert (fd <> 0) as NZ by (intros ->; contradiction).
  replace (fd <=? 0) with false in E by lia.
  destruct (configure_filters k fd configs num tr1) as [[x tr2]|] eqn:C; [|discriminate]. cbn [bind] in E.
  destruct (configure_state _ _ _ _ _ _ _ _ _ OP C) as (st' & OP' & KD & B & P).
  destruct (result_not x).
  - injection E as <- <- <-. unfold guarded, sys. cbn [fst snd]. eapply opened_close; eauto.
  - injection E as <- <- <-. cbn [iface_make if_name if_fd]. destruct OP' as (E2 & S2 & O2).
    split; [exact E2|]. repeat split; auto. exists st'. split; [exact S2|]. unfold ready in *. rewrite KD, B, P. exact RD.
Qed.

Definition of_group (k : system) (devices : string -> Z -> Prop) (m : manager) (tr : trace) (s : iface) : Prop :=
  In (if_name s) (m_required m) /\ exists st, sock_at tr (if_fd s) = Some st /\ ready k devices (m_canfd m) (m_own m) (if_name s) st.

Lemma create_all_state : forall live k devices m configs num, In 0 live -> proper live k -> looks_up devices k -> forall fuel i acc tr acc' tr',
  create_all fuel i k m configs num acc tr = Some (Ret (acc', tr')) -> each fine tr -> Forall (of_group k devices m tr) acc ->
  NoDup (map if_fd acc) ->
  each fine tr' /\ Forall (of_group k devices m tr') acc' /\ NoDup (map if_fd acc') /\
  (forall d, In d (map if_fd acc) -> In d (map if_fd acc')) /\
  (forall d, In d (map if_fd acc') -> In d (map if_fd acc) \/ sock_at tr d = None) /\
  forall d, ~ In d (map if_fd acc') -> sock_at tr' d = sock_at tr d.
Proof.
  intros live k devices m configs num Z0 PR LK. induction fuel as [|fuel IH]; intros i acc tr acc' tr' E EF OG ND; [discriminate|].
  cbn [create_all] in E. destruct (i <? Z.of_nat (length (m_required m))).
  2:{ injection E as <- <-. split; [exact EF|]. split; [exact OG|]. split; [exact ND|]. split; [auto|]. split; auto. }
  destruct (nth_error (m_required m) (Z.to_nat i)) as [name|] eqn:NE; [|discriminate]. apply nth_error_In in NE.
  destruct (create_interface k m i name configs num tr) as [[[r o] tr1]|] eqn:C; [|discriminate].
  destruct (create_state live k devices m i name configs num tr r o tr1 Z0 PR LK EF C) as [E1 S1].
  destruct o as [s|].
  - destruct S1 as (-> & NM & SN & OT & st & ST & RD). cbn [result_not isSuccess negb] in E.
    assert (~ In (if_fd s) (map if_fd acc)) as NI.
    { intros I. apply in_map_iff in I. destruct I as (s' & FD & I). rewrite Forall_forall in OG. destruct (OG s' I) as (_ & st' & S' & _).
      congruence. }
    destruct (IH _ _ _ _ _ E E1) as (A1 & A2 & A3 & A4 & A5 & A6).
    + apply Forall_app. split.
      * apply Forall_forall. intros s' I. rewrite Forall_forall in OG. destruct (OG s' I) as (Q1 & st' & S' & Q2).
        split; [exact Q1|]. exists st'. split; [|exact Q2]. rewrite OT; [exact S'|]. intros FD. apply NI. rewrite <- FD. apply in_map. exact I.
      * constructor; [|constructor]. split; [rewrite NM; exact NE|]. exists st. rewrite NM. auto.
    + rewrite map_app. cbn [map]. apply NoDup_rev in ND. rewrite <- (rev_involutive (map if_fd acc ++ [if_fd s])). apply NoDup_rev.
      rewrite rev_app_distr. cbn. constructor; [|exact ND]. rewrite <- in_rev. exact NI.
    + split; [exact A1|]. split; [exact A2|]. split; [exact A3|]. split; [|split].
      * intros d I. apply A4. rewrite map_app, in_app_iff. auto.
      * intros d I. destruct (A5 d I) as [J|J].
        -- rewrite map_app, in_app_iff in J. destruct J as [J|[<-|[]]]; auto.
        -- destruct (Z.eq_dec d (if_fd s)) as [->|N]; [auto|]. rewrite OT in J by exact N. auto.
      * intros d N. rewrite A6 by exact N. apply OT. intros ->. apply N, A4. rewrite map_app, in_app_iff. right. left. reflexivity.
  - destruct (IH _ _ _ _ _ E E1) as (A1 & A2 & A3 & A4 & A5 & A6); auto.
    + eapply Forall_impl; [|exact OG]. intros s' (Q1 & st' & S' & Q2). split; [exact Q1|]. exists st'. rewrite S1. auto.
    + split; [exact A1|]. split; [exact A2|]. split; [exact A3|]. split; [exact A4|]. split.
      * intros d I. rewrite <- S1. auto.
      * intros d I. rewrite <- S1. auto.
Qed.

Lemma close_state : forall k g tr, each fine tr -> NoDup (map if_fd g) -> (forall s, In s g -> is_open tr (if_fd s)) ->
  each fine (close_group k g tr) /\ forall d, sock_at (close_group k g tr) d = if existsb (Z.eqb d) (map if_fd g) then None else sock_at tr d.
Proof.
  intros k. unfold close_group. induction g as [|s g IH]; intros tr E ND O; cbn [fold_left map existsb]; [auto|].
  cbn [map] in ND. inversion ND as [|? ? NI ND']. subst.
  set (tr1 := snd (sys k (Sys_close (getSocketDescriptor s)) tr)).
  assert (forall d, sock_at tr1 d = if if_fd s =? d then None else sock_at tr d) as S1.
  { intros d. unfold tr1, sys. cbn [snd]. rewrite sock_app. reflexivity. }
  destruct (IH tr1) as [E2 S2]; auto.
  - apply each_snoc; [exact E|]. split; [|exact Logic.I]. intros d [<-|[]]. apply O. left. reflexivity.
  - intros s' I. unfold is_open. rewrite S1. destruct (if_fd s =? if_fd s') eqn:X.
    + exfalso. apply NI. replace (if_fd s) with (if_fd s') by lia. apply in_map. exact I.
    + apply O. right. exact I.
  - split; [exact E2|]. intros d. rewrite S2, S1. rewrite (Z.eqb_sym d (if_fd s)). destruct (if_fd s =? d), (existsb _ _); reflexivity.
Qed.

Lemma reconfigure_state : forall k g devices m configs num fuel i tr r tr', reconfigure fuel i k g configs num tr = Some (Ret (r, tr')) ->
  each fine tr -> Forall (of_group k devices m tr) g ->
  each fine tr' /\ Forall (of_group k devices m tr') g /\ forall d, is_open tr' d <-> is_open tr d.
Proof.
  intros k g devices m configs num. induction fuel as [|fuel IH]; intros i tr r tr' E EF OG; [discriminate|].
  cbn [reconfigure] in E. destruct (i <? Z.of_nat (length g)).
  2:{ injection E as <- <-. split; [exact EF|]. split; [exact OG|]. tauto. }
  destruct (nth_error g (Z.to_nat i)) as [s|] eqn:NE; [|discriminate]. apply nth_error_In in NE.
  destruct (configure_filters k (getSocketDescriptor s) configs num tr) as [[x tr1]|] eqn:C; [|discriminate].
  pose proof OG as OG'. rewrite Forall_forall in OG'. destruct (OG' s NE) as (_ & st & ST & _).
  assert (opened tr (if_fd s) tr st) as OP by (split; [exact EF|]; split; [exact ST|auto]).
  destruct (configure_state k (if_fd s) _ _ _ _ _ _ _ OP C) as (st' & (E1 & S1 & O1) & KD & B & P).
  assert (forall d, is_open tr1 d <-> is_open tr d) as IO.
  { intros d. unfold is_open. destruct (Z.eq_dec d (if_fd s)) as [->|N]; [rewrite S1, ST; split; discriminate|].
    rewrite O1 by exact N. tauto. }
  assert (Forall (of_group k devices m tr1) g) as OG1.
  { eapply Forall_impl; [|exact OG]. intros s' (Q1 & st1 & S' & Q2). split; [exact Q1|].
    destruct (Z.eq_dec (if_fd s') (if_fd s)) as [FD|N].
    - exists st'. rewrite FD. split; [exact S1|]. assert (st1 = st) as -> by (rewrite FD in S'; congruence).
      unfold ready in *. rewrite KD, B, P. exact Q2.
    - exists st1. rewrite O1 by exact N. auto. }
  destruct (result_not x).
  - injection E as <- <-. auto.
  - destruct (IH _ _ _ _ E E1 OG1) as (A1 & A2 & A3). split; [exact A1|]. split; [exact A2|]. intros d. rewrite A3. apply IO.
Qed.

(** What is true of a program at any time. *)
Definition fds (p : option group) : list Z := match p with Some g => map if_fd g | None => [] end.
Definition inv (k : system) (devices : string -> Z -> Prop) (m : manager) (p : option group) (tr : trace) : Prop :=
  each fine tr /\ NoDup (fds p) /\ (forall d, is_open tr d <-> In d (fds p)) /\
  match p with Some g => Forall (of_group k devices m tr) g | None => True end.

Lemma map_replace : forall A (f : iface -> A) n s v g, nth_error g n = Some s -> f v = f s -> map f (replace_nth n v g) = map f g.
Proof.
  intros A f. induction n as [|n IH]; intros s v [|x g] NE F; cbn in *; try discriminate.
  - injection NE as ->. rewrite F. reflexivity.
  - f_equal. eapply IH; eauto.
Qed.

Lemma inv_same : forall k devices m g g' tr c a, map if_fd g' = map if_fd g -> map if_name g' = map if_name g ->
  inv k devices m (Some g) tr -> fine tr c -> (forall d x, effect d x (c, a) = x) -> inv k devices m (Some g') (tr ++ [(c, a)]).
Proof.
  intros k devices m g g' tr c a FD NM (E & ND & O & OG) F EF. split; [|split; [|split]].
  - apply each_snoc; auto.
  - cbn [fds] in *. rewrite FD. exact ND.
  - intros d. cbn [fds] in *. rewrite FD. unfold is_open in *. rewrite sock_app, EF. apply O.
  - clear ND O. revert g' FD NM. induction OG as [|s g (Q1 & st & S & Q2) OG IH]; intros [|s' g'] FD NM; try discriminate; constructor.
    + cbn in FD, NM. injection FD as FD _. injection NM as NM _. split; [rewrite NM; exact Q1|]. exists st. rewrite FD, NM.
      rewrite sock_app, EF. auto.
    + cbn in FD, NM. apply IH; congruence.
Qed.

Lemma inv_replaced : forall k devices m g tr n s s', nth_error g n = Some s -> if_fd s' = if_fd s -> if_name s' = if_name s ->
  inv k devices m (Some g) tr -> inv k devices m (Some (replace_nth n s' g)) tr.
Proof.
  intros k devices m g tr n s s' NE FD NM (E & ND & O & OG). split; [exact E|]. cbn [fds] in *.
  rewrite (map_replace _ if_fd n s s' g NE FD). split; [exact ND|]. split; [exact O|].
  revert n NE. clear ND O. induction OG as [|x g (Q1 & st & S & Q2) OG IH]; intros [|n] NE; cbn [replace_nth nth_error] in *; try discriminate.
  - injection NE as ->. constructor; [|exact OG]. split; [rewrite NM; exact Q1|]. exists st. rewrite FD, NM. auto.
  - constructor; [split; eauto|]. apply IH. exact NE.
Qed.

Lemma read_same : forall res errno msgs s out r, read res errno msgs s out = Ret r -> if_name (rd_if r) = if_name s /\ if_fd (rd_if r) = if_fd s.
Proof.
  intros res errno msgs s out r H. unfold read in H. destruct (res <=? 0).
  - match type of H with Ret ?x = _ => assert (r = x) as -> by congruence end. auto.
  - cbn zeta in H. apply bind_ret_inv in H. destruct H as ([[st out'] k] & _ & H).
    match type of H with Ret ?x = _ => assert (r = x) as -> by congruence end. auto.
Qed.

Lemma fine_of_group : forall k devices m g n s tr c, inv k devices m (Some g) tr -> nth_error g n = Some s -> uses c = [if_fd s] -> shape c -> fine tr c.
Proof.
  intros k devices m g n s tr c (_ & _ & O & _) NE U SH. split; [|exact SH]. rewrite U. intros d [<-|[]]. apply O. cbn [fds].
  apply in_map. eapply nth_error_In. exact NE.
Qed.

Lemma step_inv : forall P live k devices m, In 0 live -> proper live k -> looks_up devices k -> forall fuel o p tr r p' tr',
  step P fuel k m o p tr = Some (Ret (r, p', tr')) -> inv k devices m p tr -> inv k devices m p' tr'.
Proof.
  intros P live k devices m Z0 PR LK fuel o p tr r p' tr' E I.
  destruct o as [configs num| |configs num|i fs n|msgs i out|timeout ig rev]; cbn [step] in E.
  - destruct (start_group fuel k m configs num p tr) as [[[[x q] tq]|]|] eqn:S; try discriminate. injection E as _ <- <-.
    destruct I as (I1 & I2 & I3 & I4). unfold start_group in S.
    destruct (create_all fuel 0 k m configs num [] tr) as [[[acc tr1]|]|] eqn:C; try discriminate.
    destruct (create_all_state live k devices m configs num Z0 PR LK _ _ _ _ _ _ C I1 (Forall_nil _) (NoDup_nil _))
      as (A1 & A2 & A3 & _ & A5 & A6).
    assert (forall d, In d (map if_fd acc) -> ~ In d (fds p)) as DIS.
    { intros d J K. apply I3 in K. unfold is_open in K. destruct (A5 d J) as [[]|H]. contradiction. }
    destruct acc as [|s acc].
    + injection S as _ <- <-. split; [exact A1|]. split; [exact I2|]. split.
      * intros d. unfold is_open. rewrite A6 by (intros []). apply I3.
      * destruct p as [g|]; [|exact Logic.I]. eapply Forall_impl; [|exact I4]. intros s' (Q1 & st & S' & Q2).
        split; [exact Q1|]. exists st. rewrite A6 by (intros []). auto.
    + remember (s :: acc) as g. clear Heqg s acc. injection S as _ <- <-. destruct p as [old|]; cbn [close_ptr fds] in *.
      * destruct (close_state k old tr1 A1 I2) as [B1 B2].
        { intros s J. unfold is_open. rewrite A6.
          - apply I3. apply in_map. exact J.
          - intros K. apply (DIS _ K). apply in_map. exact J. }
        split; [exact B1|]. split; [exact A3|]. split.
        -- intros d. unfold is_open. rewrite B2. cbn [fds]. destruct (existsb (Z.eqb d) (map if_fd old)) eqn:X.
           ++ apply existsb_In in X. split; [congruence|]. intros J. exfalso. apply (DIS _ J X).
           ++ split.
              ** intros S. destruct (in_dec Z.eq_dec d (map if_fd g)) as [J|J]; [exact J|]. exfalso. rewrite A6 in S by exact J.
                 apply I3 in S. apply existsb_In in S. congruence.
              ** intros J. apply in_map_iff in J. destruct J as (s & <- & J). rewrite Forall_forall in A2.
                 destruct (A2 s J) as (_ & st & S & _). congruence.
        -- apply Forall_forall. intros s J. rewrite Forall_forall in A2. destruct (A2 s J) as (Q1 & st & S & Q2). split; [exact Q1|].
           exists st. split; [|exact Q2]. rewrite B2. rewrite existsb_not_In; [exact S|]. apply DIS. apply in_map. exact J.
      * split; [exact A1|]. split; [exact A3|]. split; [|exact A2].
        intros d. cbn [fds]. split.
        -- intros S. destruct (in_dec Z.eq_dec d (map if_fd g)) as [J|J]; [exact J|]. exfalso. unfold is_open in S. rewrite A6 in S by exact J.
           apply I3 in S. exact S.
        -- intros J. apply in_map_iff in J. destruct J as (s & <- & J). rewrite Forall_forall in A2.
           destruct (A2 s J) as (_ & st & S & _). unfold is_open. congruence.
  - injection E as _ <- <-. destruct I as (I1 & I2 & I3 & I4). destruct p as [g|]; cbn [close_ptr].
    + destruct (close_state k g tr I1 I2) as [B1 B2].
      { intros s J. apply I3. cbn [fds]. apply in_map. exact J. }
      split; [exact B1|]. split; [constructor|]. split; [|exact Logic.I]. intros d. unfold is_open. rewrite B2. cbn [fds In].
      split; [|tauto]. intros S. cbn [fds] in I3. destruct (existsb (Z.eqb d) (map if_fd g)) eqn:X; [congruence|].
      apply I3 in S. apply existsb_In in S. congruence.
    + split; [exact I1|]. split; [exact I2|]. split; [exact I3|exact Logic.I].
  - destruct p as [g|]; [|discriminate].
    destruct (reconfigure fuel 0 k g configs num tr) as [[[x tq]|]|] eqn:S; try discriminate. injection E as _ <- <-.
    destruct I as (I1 & I2 & I3 & I4). destruct (reconfigure_state k g devices m configs num _ _ _ _ _ S I1 I4) as (B1 & B2 & B3).
    split; [exact B1|]. split; [exact I2|]. split; [|exact B2]. intros d. rewrite B3. apply I3.
  - destruct p as [g|]; [|discriminate]. unfold group_write_call in E. destruct (Z.of_nat (length g) <=? i).
    { cbn [bind] in E. injection E as _ <- <-. exact I. }
    destruct (nth_error g (Z.to_nat i)) as [s|] eqn:NE; [|discriminate]. unfold write_call in E.
    destruct (write _ s fs n) as [w|] eqn:W; [|discriminate]. cbn [bind] in E. apply write_keeps in W. destruct W as (_ & _ & _ & W1 & W2).
    injection E as _ <- <-. destruct (wr_sent w) as [sent|]; cbn [sys snd].
    + eapply inv_same; [| | |eapply fine_of_group; eauto; reflexivity|reflexivity]; [| |exact I].
      * eapply map_replace; eauto.
      * eapply map_replace; eauto.
    + eapply inv_replaced; eauto.
  - destruct p as [g|]; [|discriminate]. unfold group_read_call in E. destruct (Z.of_nat (length g) <=? i).
    { cbn [bind] in E. injection E as _ <- <-. exact I. }
    destruct (nth_error g (Z.to_nat i)) as [s|] eqn:NE; [|discriminate]. unfold read_call, sys in E.
    destruct (k tr _) as [res errno] eqn:K. destruct (read res errno msgs s out) as [x|] eqn:R; [|discriminate]. cbn [bind] in E.
    apply read_same in R. destruct R as [W1 W2]. injection E as _ <- <-.
    eapply inv_same; [| | |eapply fine_of_group; eauto; reflexivity|reflexivity]; [| |exact I].
    + eapply map_replace; eauto.
    + eapply map_replace; eauto.
  - destruct p as [g|]; [|discriminate]. unfold select_call in E. destruct (select _ _ _ _ _) as [[x req]|] eqn:S; [|discriminate].
    cbn [bind] in E. injection E as _ <- <-. cbn [sys snd]. eapply inv_same; [reflexivity|reflexivity|exact I| |reflexivity].
    split; [|exact Logic.I]. cbn [uses]. intros d J. destruct I as (_ & _ & O & _). apply O. cbn [fds].
    replace (map fst (pr_fds req)) with (map if_fd g) in J; [exact J|].
    unfold select in S. apply bind_ret_inv in S. destruct S as (ns & _ & S).
    match type of S with context [PollRequest ?l _ _] => assert (pr_fds req = l) as -> end.
    + cbn [fst] in S. repeat match type of S with (if ?b then _ else _) = _ => destruct b end;
        match type of S with Ret (_, ?q) = _ => assert (req = q) as -> by congruence end; reflexivity.
    + rewrite map_map. reflexivity.
Qed.

Lemma run_inv : forall P live k devices m h p tr, In 0 live -> proper live k -> looks_up devices k -> run P k m h p tr -> inv k devices m p tr.
Proof.
  intros P live k devices m h p tr Z0 PR LK R. induction R as [|h p tr o fuel r p' tr' R IH OK E].
  - split; [apply each_nil|]. split; [constructor|]. split; [|exact Logic.I]. intros d. split; [|intros []]. intros O. apply O. reflexivity.
  - eapply step_inv; eauto.
Qed.

(** * Waiting *)

Lemma types : forall tr, each fine tr -> forall d st, sock_at tr d = Some st -> so_type st = SOCK_RAW.
Proof.
  intros tr. induction tr as [|[c [x y]] tr IH] using rev_ind; intros E d st S; [discriminate|].
  assert (each fine tr) as E'.
  { intros pre c' a' post ->. apply (E pre c' a' (post ++ [(c, (x, y))])%list). rewrite <- app_assoc. reflexivity. }
  specialize (IH E' d). pose proof (E tr c (x, y) [] eq_refl) as [_ SH]. rewrite sock_app in S.
  destruct c; cbn [effect] in S; auto;
    try (destruct (_ && _); [|auto]; destruct (sock_at tr d) as [st0|]; [|discriminate]; injection S as <-; exact (IH st0 eq_refl)).
  - destruct (_ && _); [|auto]. injection S as <-. exact SH.
  - destruct (_ =? _); [discriminate|auto].
Qed.

Definition transfer_or_poll (c : syscall) : Prop :=
  match c with Sys_sendmmsg _ _ _ _ | Sys_ppoll _ _ _ => True | _ => False end.

Lemma waits : forall tr pre c a post, each fine tr -> tr = (pre ++ (c, a) :: post)%list -> (may_wait pre c <-> transfer_or_poll c).
Proof.
  intros tr pre c a post E EQ. destruct (E pre c a post EQ) as [U SH].
  assert (each fine pre) as EP.
  { intros pre' c' a' post' ->. apply (E pre' c' a' (post' ++ (c, a) :: post)%list). rewrite EQ, <- app_assoc. reflexivity. }
  destruct c; cbn [may_wait transfer_or_poll]; try tauto; cbn in SH; subst.
  - split; [auto|]. intros _ [N|N]; [discriminate|]. specialize (U fd (or_introl eq_refl)). unfold is_open in U.
    destruct (sock_at pre fd) as [st|] eqn:S; [|congruence]. rewrite (types pre EP fd st S) in N. discriminate.
  - split; [|tauto]. intros N. apply N. left. reflexivity.
Qed.

(** * What each operation adds to the calls *)

Definition extends (Q : syscall -> Prop) (tr tr' : trace) : Prop := exists new, tr' = (tr ++ new)%list /\ Forall (fun e => Q (fst e)) new.

Lemma ext_refl : forall Q tr, extends Q tr tr.
Proof. intros. exists []. rewrite app_nil_r. auto. Qed.

Lemma ext_trans : forall Q a b c, extends Q a b -> extends Q b c -> extends Q a c.
Proof.
  intros Q a b c (n1 & -> & F1) (n2 & -> & F2). exists (n1 ++ n2)%list. rewrite app_assoc. split; [reflexivity|]. apply Forall_app. auto.
Qed.

Lemma ext_call : forall (Q : syscall -> Prop) a b c x, Q c -> extends Q a b -> extends Q a (b ++ [(c, x)]).
Proof. intros Q a b c x H E. eapply ext_trans; [exact E|]. exists [(c, x)]. auto. Qed.

Definition quiet (c : syscall) : Prop :=
  match c with Sys_sendmmsg _ _ _ _ | Sys_recvmmsg _ _ _ | Sys_ppoll _ _ _ => False | _ => True end.

Lemma quiet_open : forall k name c o tr fd tr', open_socket k name c o tr = (fd, tr') -> extends quiet tr tr'.
Proof.
  intros k name c o tr fd tr' E. unfold open_socket, guarded, sys in E. cbn [fst snd] in E.
  assert (extends quiet tr tr) as X by apply ext_refl. revert E.
  assert (forall b x y, quiet b -> extends quiet tr x -> extends quiet tr (x ++ [(b, y)])) as C by (intros; apply ext_call; auto).
  assert (forall (b : bool) c t x y, quiet c -> extends quiet tr t -> (if b then (x, (t ++ [(c, x)])%list) else ((0, 0), t)) = y -> extends quiet tr (snd y)) as D.
  { intros b c' t x y Q T <-. destruct b; cbn [snd]; auto. }
  destruct (k tr (Sys_socket PF_CAN SOCK_RAW CAN_RAW)) as [s e].
  pose proof (C (Sys_socket PF_CAN SOCK_RAW CAN_RAW) _ (s, e) Logic.I X) as X1.
  destruct (s <? 0); [intros E; injection E as <- <-; exact X1|].
  match goal with |- context [if c then ?A else ?B] => destruct (if c then A else B) as [[r1 e1] t1] eqn:E1 end.
  apply D in E1; [|exact Logic.I|exact X1]. cbn [snd] in E1.
  destruct (negb (r1 =? 0)); [intros E; injection E as <- <-; apply C; [exact Logic.I|auto]|].
  match goal with |- context [if o then ?A else ?B] => destruct (if o then A else B) as [[r2 e2] t2] eqn:E2 end.
  apply D in E2; [|exact Logic.I|exact E1]. cbn [snd] in E2.
  destruct (negb (r2 =? 0)); [intros E; injection E as <- <-; apply C; [exact Logic.I|auto]|].
  destruct (IFNAMSIZ <=? _); [intros E; injection E as <- <-; apply C; [exact Logic.I|auto]|].
  destruct (k t2 _) as [r3 i3]. destruct ((r3 <? 0) || (i3 <? 0)).
  { intros E; injection E as <- <-. apply C; [exact Logic.I|]. apply C; [exact Logic.I|]. exact E2. }
  destruct (k (t2 ++ _)%list _) as [r4 e4]. destruct (r4 <? 0).
  { intros E; injection E as <- <-. repeat (apply C; [exact Logic.I|]). exact E2. }
  destruct (k _ (Sys_so_error s)) as [r5 e5]. destruct (negb (e5 =? 0)); intros E; injection E as <- <-;
    repeat (apply C; [exact Logic.I|]); exact E2.
Qed.

Lemma quiet_configure : forall k fd configs num tr r tr', configure_filters k fd configs num tr = Ret (r, tr') -> extends quiet tr tr'.
Proof.
  intros k fd configs num tr r tr' E. unfold configure_filters in E.
  destruct (_ && _ && _); [injection E as <- <-; apply ext_refl|]. destruct (num =? 0)%nat.
  - unfold sys in E. destruct (k tr _). injection E as <- <-. apply ext_call; [exact Logic.I|apply ext_refl].
  - destruct configs as [cs|]; [|discriminate]. destruct (convert_filters num cs); [|discriminate]. cbn [bind] in E.
    unfold sys in E. destruct (k tr _). injection E as <- <-. apply ext_call; [exact Logic.I|apply ext_refl].
Qed.

Lemma quiet_create : forall k m i name configs num tr r o tr', create_interface k m i name configs num tr = Ret (r, o, tr') -> extends quiet tr tr'.
Proof.
  intros k m i name configs num tr r o tr' E. unfold create_interface in E.
  destruct (open_socket k name (m_canfd m) (m_own m) tr) as [fd tr1] eqn:O. apply quiet_open in O.
  destruct (fd <=? 0); [injection E as <- <- <-; exact O|].
  destruct (configure_filters k fd configs num tr1) as [[x tr2]|] eqn:C; [|discriminate]. apply quiet_configure in C. cbn [bind] in E.
  destruct (result_not x); injection E as <- <- <-; unfold guarded; cbn [sys fst snd].
  - apply ext_call; [exact Logic.I|]. eapply ext_trans; eauto.
  - eapply ext_trans; eauto.
Qed.

Lemma quiet_create_all : forall k m configs num fuel i acc tr acc' tr',
  create_all fuel i k m configs num acc tr = Some (Ret (acc', tr')) -> extends quiet tr tr'.
Proof.
  induction fuel as [|fuel IH]; intros i acc tr acc' tr' E; [discriminate|]. cbn [create_all] in E.
  destruct (_ <? _); [|injection E as <- <-; apply ext_refl]. destruct (nth_error _ _); [|discriminate].
  destruct (create_interface _ _ _ _ _ _ _) as [[[r o] tr1]|] eqn:C; [|discriminate]. apply quiet_create in C.
  eapply ext_trans; [exact C|]. eapply IH. exact E.
Qed.

Lemma quiet_close : forall k p tr, extends quiet tr (close_ptr k p tr).
Proof.
  intros k [g|] tr; [|apply ext_refl]. cbn [close_ptr]. unfold close_group. revert tr.
  induction g as [|s g IH]; intros tr; [apply ext_refl|]. cbn [fold_left]. eapply ext_trans; [|apply IH]. cbn [sys snd].
  apply ext_call; [exact Logic.I|apply ext_refl].
Qed.

Lemma quiet_reconfigure : forall k g configs num fuel i tr r tr', reconfigure fuel i k g configs num tr = Some (Ret (r, tr')) -> extends quiet tr tr'.
Proof.
  induction fuel as [|fuel IH]; intros i tr r tr' E; [discriminate|]. cbn [reconfigure] in E.
  destruct (_ <? _); [|injection E as <- <-; apply ext_refl]. destruct (nth_error _ _); [|discriminate].
  destruct (configure_filters _ _ _ _ _) as [[x tr1]|] eqn:C; [|discriminate]. apply quiet_configure in C.
  destruct (result_not x); [injection E as <- <-; exact C|]. eapply ext_trans; [exact C|]. eapply IH. exact E.
Qed.

Lemma write_sends : forall k s fs n w, write k s fs n = Ret w -> (wr_sent w = None <-> n = O).
Proof.
  intros k s fs n w H. unfold write in H. destruct (n =? 0)%nat eqn:N.
  - assert (w = WriteOut s BadArgument 0 None) as -> by congruence. apply Nat.eqb_eq in N. cbn. tauto.
  - apply Nat.eqb_neq in N. apply bind_ret_inv in H. destruct H as (b & _ & H). destruct (k (firstn n b)) as [res errno].
    destruct (res <=? 0); [|destruct (res <? Z.of_nat n)];
      match type of H with Ret ?x = _ => assert (w = x) as -> by congruence end; cbn; split; intros; try discriminate; contradiction.
Qed.

Lemma step_extends : forall P fuel k m o p tr r p' tr', step P fuel k m o p tr = Some (Ret (r, p', tr')) -> exists new,
  tr' = (tr ++ new)%list /\ (Exists (fun e => transfer_or_poll (fst e)) new <-> waiting o p).
Proof.
  intros P fuel k m o p tr r p' tr' E.
  assert (extends quiet tr tr' -> ~ waiting o p -> exists new, tr' = (tr ++ new)%list /\ (Exists (fun e => transfer_or_poll (fst e)) new <-> waiting o p)) as H.
  { intros (new & -> & F) W. exists new. split; [reflexivity|]. split; [|tauto]. intros X. exfalso. apply Exists_exists in X.
    destruct X as (e & I & T). rewrite Forall_forall in F. specialize (F e I). destruct (fst e); contradiction. }
  destruct o as [configs num| |configs num|i fs n|msgs i out|timeout ig rev]; cbn [step waiting] in *.
  - apply H; [|auto]. destruct (start_group fuel k m configs num p tr) as [[[[x q] tq]|]|] eqn:S; try discriminate. injection E as _ _ <-.
    unfold start_group in S. destruct (create_all fuel 0 k m configs num [] tr) as [[[acc tr1]|]|] eqn:C; try discriminate.
    apply quiet_create_all in C. destruct acc; injection S as _ _ <-; [exact C|]. eapply ext_trans; [exact C|apply quiet_close].
  - apply H; [|auto]. injection E as _ _ <-. apply quiet_close.
  - apply H; [|auto]. destruct p as [g|]; [|discriminate].
    destruct (reconfigure fuel 0 k g configs num tr) as [[[x tq]|]|] eqn:S; try discriminate. injection E as _ _ <-.
    eapply quiet_reconfigure. exact S.
  - destruct p as [g|]; [|discriminate]. unfold group_write_call in E. destruct (Z.of_nat (length g) <=? i) eqn:L.
    { cbn [bind] in E. injection E as _ _ <-. apply H; [apply ext_refl|]. intros (_ & g' & G & L'). injection G as <-. lia. }
    destruct (nth_error g (Z.to_nat i)) as [s|] eqn:NE; [|discriminate]. unfold write_call in E.
    destruct (write _ s fs n) as [w|] eqn:W; [|discriminate]. cbn [bind] in E. apply write_sends in W.
    injection E as _ _ <-. destruct (wr_sent w) as [sent|]; cbn [sys snd].
    + eexists. split; [reflexivity|]. split; [|intros _; apply Exists_cons_hd; exact Logic.I]. intros _. split.
      * destruct n; [|lia]. destruct W as [_ W]. discriminate (W eq_refl).
      * exists g. split; [reflexivity|lia].
    + apply H; [apply ext_refl|]. intros (N & _). destruct W as [W _]. rewrite (W eq_refl) in N. lia.
  - destruct p as [g|]; [|discriminate]. unfold group_read_call in E. destruct (Z.of_nat (length g) <=? i).
    { cbn [bind] in E. injection E as _ _ <-. apply H; [apply ext_refl|auto]. }
    destruct (nth_error g (Z.to_nat i)) as [s|] eqn:NE; [|discriminate]. unfold read_call, sys in E.
    destruct (k tr _) as [res errno] eqn:K. destruct (read res errno msgs s out) as [x|] eqn:R; [|discriminate]. cbn [bind] in E.
    injection E as _ _ <-. eexists. split; [reflexivity|]. split; [|tauto]. intros X. inversion X as [? ? Y|? ? Y]; [exact Y|inversion Y].
  - destruct p as [g|]; [|discriminate]. unfold select_call in E. destruct (select _ _ _ _ _) as [[x req]|] eqn:S; [|discriminate].
    cbn [bind] in E. injection E as _ _ <-. cbn [sys snd]. eexists. split; [reflexivity|]. split; [auto|]. intros _.
    apply Exists_cons_hd. exact Logic.I.
Qed.

Lemma step_waits : forall P live k m h p tr o fuel r p' tr', In 0 live -> proper live k -> run P k m h p tr -> permitted k o p tr ->
  step P fuel k m o p tr = Some (Ret (r, p', tr')) -> exists new, tr' = (tr ++ new)%list /\
  ((exists pre c a post, new = (pre ++ (c, a) :: post)%list /\ may_wait (tr ++ pre) c) <-> waiting o p).
Proof.
  intros P live k m h p tr o fuel r p' tr' Z0 PR R OK E.
  assert (inv k (fun _ _ => True) m p' tr') as (EF & _).
  { eapply run_inv; [exact Z0|exact PR|intros ? ? ? ?; exact Logic.I|eapply r_step; eauto]. }
  destruct (step_extends _ _ _ _ _ _ _ _ _ _ E) as (new & EQ & W). exists new. split; [exact EQ|]. rewrite <- W. split.
  - intros (pre & c & a & post & -> & MW). apply (waits tr' (tr ++ pre) c a post EF) in MW; [|rewrite EQ, app_assoc; reflexivity].
    apply Exists_exists. exists (c, a). split; [|exact MW]. apply in_app_iff. right. left. reflexivity.
  - intros X. apply Exists_exists in X. destruct X as ([c a] & I & T). apply in_split in I. destruct I as (pre & post & ->).
    exists pre, c, a, post. split; [reflexivity|]. apply (waits tr' (tr ++ pre) c a post EF); [rewrite EQ, app_assoc; reflexivity|exact T].
Qed.

(** * What write and read ask the system for *)

Lemma run_ok : forall P live k m h g tr n s, (length (m_required m) <= 255)%nat -> proper live k -> run P k m h (Some g) tr ->
  nth_error g n = Some s -> iface_typed s.
Proof.
  intros P live k m h g tr n s L PR R NE. destruct (run_refines _ _ _ _ _ _ _ PR R) as (h' & _ & H).
  apply (history_ok _ _ _ _ L) in H. destruct H as [_ F].
  rewrite Forall_forall in F. apply F. eapply nth_error_In. exact NE.
Qed.

Lemma step_write : forall P live k m h g tr i fs n fuel r p' tr' s, (length (m_required m) <= 255)%nat -> proper live k ->
  run P k m h (Some g) tr -> permitted k (Op_write i fs n) (Some g) tr -> nth_error g (Z.to_nat i) = Some s -> (1 <= n)%nat ->
  step P fuel k m (Op_write i fs n) (Some g) tr = Some (Ret (r, p', tr')) -> exists msgs a res,
  tr' = (tr ++ [(Sys_sendmmsg (if_fd s) msgs (Z.of_nat n) 0, a)])%list /\ length msgs = n /\
  r = Answered (Wrote res (Z.max 0 (fst a)) (Some msgs)).
Proof.
  intros P live k m h g tr i fs n fuel r p' tr' s L PR R (_ & RI & FT & N4) NE N1 E.
  pose proof (run_ok _ _ _ _ _ _ _ _ _ L PR R NE) as TS. cbn [step] in E. unfold group_write_call in E.
  assert (Z.to_nat i < length g)%nat as LT by (apply nth_error_Some; congruence).
  replace (Z.of_nat (length g) <=? i) with false in E by lia. rewrite NE in E. unfold write_call in E.
  rewrite write_eq in E by (auto; lia). cbn [bind] in E. set (msgs := firstn n (buf_after s fs n)) in *.
  assert (length msgs = n) as LM by (apply sent_length; auto).
  rewrite Z.mod_small in E by lia. change (getSocketDescriptor s) with (if_fd s) in E.
  exists msgs, (k tr (Sys_sendmmsg (if_fd s) msgs (Z.of_nat n) 0)). unfold sys in E.
  destruct (k tr (Sys_sendmmsg (if_fd s) msgs (Z.of_nat n) 0)) as [res errno] eqn:K. cbn [fst].
  destruct (res <=? 0) eqn:E1; [|destruct (res <? Z.of_nat n)]; cbn [bind wr_sent wr_result wr_count snd] in E; rewrite ?K in E;
    injection E as <- _ <-; (eexists; split; [reflexivity|]; split; [exact LM|]).
  - replace (Z.max 0 res) with 0 by lia. reflexivity.
  - replace (Z.max 0 res) with res by lia. reflexivity.
  - replace (Z.max 0 res) with res by lia. reflexivity.
Qed.

Lemma step_read : forall P k m g tr msgs i out fuel r p' tr' s, 0 <= i -> nth_error g (Z.to_nat i) = Some s ->
  step P fuel k m (Op_read msgs i out) (Some g) tr = Some (Ret (r, p', tr')) -> exists a x,
  tr' = (tr ++ [(Sys_recvmmsg (if_fd s) 4 MSG_DONTWAIT, a)])%list /\ read (fst a) (snd a) msgs s out = Ret x /\
  r = Answered (WasRead (rd_result x) (Z.of_nat (rd_count x)) (rd_frames x)).
Proof.
  intros P k m g tr msgs i out fuel r p' tr' s I0 NE E. cbn [step] in E. unfold group_read_call in E.
  assert (Z.to_nat i < length g)%nat as LT by (apply nth_error_Some; congruence).
  replace (Z.of_nat (length g) <=? i) with false in E by lia. rewrite NE in E. unfold read_call, sys in E.
  change (getSocketDescriptor s) with (if_fd s) in E.
  exists (k tr (Sys_recvmmsg (if_fd s) 4 MSG_DONTWAIT)). destruct (k tr _) as [res errno]. cbn [fst snd].
  destruct (read res errno msgs s out) as [x|]; [|discriminate]. cbn [bind] in E. injection E as <- _ <-.
  exists x. auto.
Qed.
