(** Calls that clash race. *)
From Coq Require Import ZArith Bool String List Lia Arith.
From Verif Require Import Outcome ResultModel CInt SatMathModel TimeModel CanFrameModel CanFrameSpec CanFrameProofs SocketCanModel SocketCanSpec
  SocketCanProofs GroupModel PollModel PollProofs OverlapModel OverlapSpec OverlapProofs OverlapRefine.
Import ListNotations.
Open Scope Z_scope.

(** A program that runs alone writes [l] at some time. *)
Fixpoint hits (p : prog) (m : memory) (l : loc) : Prop :=
  match p with
  | Done _ => False
  | Rd l' k => hits (k (m l')) m l
  | Wr l' v p => l' = l \/ hits p (upd l' v m) l
  end.

Lemma steps_app : forall P g a b s s1, steps P g a s = Some s1 -> steps P g (a ++ b) s = steps P g b s1.
Proof.
  intros P g a. induction a as [|e a IH]; intros b s s1 E; cbn [steps app] in *; [congruence|].
  destruct (step P g e s) as [s'|]; [|discriminate]. now apply IH.
Qed.

Lemma hits_steps : forall P g p m d t u c y l, t <> u -> hits p m l -> d t = Some (c, p) -> d u = Some y ->
  forall lg, exists n m' d' v p', steps P g (repeat (Access t) n) (Conf m d lg) = Some (Conf m' d' lg) /\
    d' t = Some (c, Wr l v p') /\ d' u = Some y.
Proof.
  intros P g p. induction p as [o|l0 k IH|l0 v p IH]; intros m d t u c y l D H Et Eu lg; cbn [hits] in H.
  - contradiction.
  - destruct (IH (m l0) m (set_thread t (Some (c, k (m l0))) d) t u c y l D H) with (lg := lg) as (n & m' & d' & v & p' & ST & A & B).
    + apply set_same.
    + rewrite set_other; auto.
    + exists (S n), m', d', v, p'. split; [|auto]. cbn [repeat steps step doing]. rewrite Et. cbn [mem_of log]. exact ST.
  - destruct (loc_eq_dec l0 l) as [->|N].
    + exists 0%nat, m, d, v, p. cbn. auto.
    + destruct H as [H|H]; [contradiction|].
      destruct (IH (upd l0 v m) (set_thread t (Some (c, p)) d) t u c y l D H) with (lg := lg) as (n & m' & d' & v' & p' & ST & A & B).
      * apply set_same.
      * rewrite set_other; auto.
      * exists (S n), m', d', v', p'. split; [|auto]. cbn [repeat steps step doing]. rewrite Et. cbn [mem_of log]. exact ST.
Qed.

(** A memory whose interface [i] is in order. *)
Definition sound (i : nat) (m : memory) : Prop :=
  (forall k, (k < 4)%nat -> exists c, m (Slot i k) = VSlot c /\ canfd_typed c) /\
  (forall k, (k < 4)%nat -> exists z cs, m (Ctl i k) = VCtl z cs) /\
  (exists st, m (Stat i) = VStat st).

Lemma sound_start : forall (s : state) rest i f, nth_error (fst s) i = Some f -> iface_typed f -> sound i (memory_of s rest).
Proof.
  intros s rest i f E (LB & TB & LC). unfold sound. unfold memory_of. rewrite E. split; [|split].
  - intros k Hk. destruct (nth_error (if_buf f) k) as [c|] eqn:Ek; [|apply nth_error_None in Ek; lia].
    exists c. split; auto. eapply Forall_forall in TB; [exact TB|eapply nth_error_In; exact Ek].
  - intros k Hk. destruct (nth_error (if_ctl f) k) as [z|] eqn:Ek; [|apply nth_error_None in Ek; lia]. eauto.
  - eauto.
Qed.

Lemma recv_hits : forall msgs i k m next l, sound i m -> (k + length msgs <= 4)%nat -> Forall kmsg_typed msgs ->
  (forall m', sound i m' -> hits next m' l) -> hits (recv_prog i k msgs next) m l.
Proof.
  induction msgs as [|x msgs IH]; intros i k m next l V L T H; cbn [recv_prog]; [now apply H|]. cbn [length] in L.
  inversion T as [|? ? Tx T']; subst. pose proof V as (V1 & V2 & V3). destruct (V1 k ltac:(lia)) as (c & Ec & Tc).
  unfold with_slot. cbn [hits]. rewrite Ec. cbn [hits]. right. right. apply IH; auto; [|lia].
  split; [|split].
  - intros j Hj. rewrite upd_other by discriminate. destruct (Nat.eq_dec j k) as [->|D].
    + rewrite upd_same. eexists. split; [reflexivity|]. now apply receive_typed.
    + rewrite upd_other; [auto|]. intro A. injection A. auto.
  - intros j Hj. destruct (Nat.eq_dec j k) as [->|D].
    + rewrite upd_same. eauto.
    + rewrite upd_other; [|intro A; injection A; auto]. rewrite upd_other by discriminate. auto.
  - rewrite !upd_other by discriminate. auto.
Qed.

Lemma delivers : forall c old ts, canfd_typed c -> length (fdata old) = 64%nat ->
  exists f, (let* tmp := frame_make mtu (cf_id c) (Some (cf_data c)) (get_message_length c) ts in frame_assign mtu old tmp) = Ret f.
Proof.
  intros c old ts (I & L & D) O. unfold get_message_length.
  pose proof (dlcToLength_bound (cf_len c) ltac:(lia)) as LB.
  unfold frame_make. rewrite copy_into_ret; [|lia|rewrite repeat_length; unfold mtu; lia]. cbn [bind].
  rewrite frame_assign_ok; eauto.
  cbn [fdata]. rewrite app_length, firstn_length, skipn_length, repeat_length. unfold mtu. lia.
Qed.

Lemma read_hits : forall i res errno msgs out m, sound i m -> recv_ok res msgs -> frames_typed out -> 0 < res ->
  hits (read_prog i res errno msgs out) m (Stat i).
Proof.
  intros i res errno msgs out m V (R & TM & EQ) TF P. unfold read_prog.
  destruct (Z.leb_spec res 0); [lia|]. specialize (EQ P).
  rewrite (firstn_all2 (n := Z.to_nat res)) by lia. rewrite (firstn_all2 (n := RxFramesLen)) by (unfold RxFramesLen; lia).
  apply recv_hits; auto; [lia|]. intros m' (V1 & V2 & (st & V3)).
  destruct msgs as [|x msgs]; [cbn in EQ; lia|]. cbn [length look_prog].
  destruct out as [|old out]; [destruct TF as [TF _]; discriminate TF|]. cbn [nth_error].
  destruct (V1 0%nat ltac:(lia)) as (c & Ec & Tc). destruct (V2 0%nat ltac:(lia)) as (z & cs & Ez).
  unfold with_ctl, with_stat, with_slot. cbn [hits]. rewrite Ez. cbn [hits]. rewrite V3.
  destruct (cmsg_loop z cs 0 (rx_dropped st)) as [ts dropped]. cbn [hits]. rewrite Ec.
  destruct (has (cf_id c) CAN_ERR_FLAG); [left; reflexivity|].
  destruct (has (cf_id c) CAN_EFF_MASK); [|left; reflexivity].
  destruct (delivers c old ts Tc) as [f ->].
  - pose proof (frames_typed_data _ TF) as FD. inversion FD. auto.
  - left. reflexivity.
Qed.

(** The first access of a call with something to do, and the one after it. *)
Lemma write_first : forall i k fs n m, sound i m -> frames_typed fs -> (1 <= n <= 4)%nat ->
  (exists q, write_prog i k fs n = Rd (Slot i 0) q) /\ hits (write_prog i k fs n) m (Slot i 0).
Proof.
  intros i k fs n m (V1 & _) TF Hn. unfold write_prog. destruct (Nat.eqb_spec n 0); [lia|]. destruct n as [|n]; [lia|]. cbn [fill_prog].
  destruct fs as [|f fs]; [destruct TF as [TF _]; discriminate TF|]. cbn [nth_error RxFramesLen Nat.ltb Nat.leb].
  split; [eexists; unfold with_slot at 1; reflexivity|]. unfold with_slot at 1. cbn [hits]. destruct (V1 0%nat ltac:(lia)) as (c & Ec & Tc). rewrite Ec.
  destruct TF as [_ TF]. inversion TF as [|? ? [Tf _] _]; subst. rewrite (SocketCanProofs.fill_ok f c Tf) by apply Tc. cbn [after hits]. auto.
Qed.

Lemma read_first : forall i res errno msgs out m, sound i m -> recv_ok res msgs -> 0 < res ->
  (exists q, read_prog i res errno msgs out = Rd (Slot i 0) q) /\ hits (read_prog i res errno msgs out) m (Slot i 0).
Proof.
  intros i res errno msgs out m (V1 & _) (R & TM & EQ) P. unfold read_prog. destruct (Z.leb_spec res 0); [lia|]. specialize (EQ P).
  rewrite (firstn_all2 (n := Z.to_nat res)) by lia. rewrite (firstn_all2 (n := RxFramesLen)) by (unfold RxFramesLen; lia).
  destruct msgs as [|x msgs]; [cbn in EQ; lia|]. cbn [recv_prog]. split; [eexists; unfold with_slot at 1; reflexivity|]. unfold with_slot at 1. cbn [hits].
  destruct (V1 0%nat ltac:(lia)) as (c & Ec & _). rewrite Ec. cbn [hits]. auto.
Qed.

Lemma select_first : forall P g c v m, m Polls = VPolls v -> pv_size v = 0%nat -> sc_mem c <> None ->
  select P (sc_ppoll c) g (sc_timeout c) (sc_ignore c) <> UB ->
  (exists q, select_prog P g c = Rd Polls q) /\ hits (select_prog P g c) m Polls.
Proof.
  intros P g c v m HP Z0 MM U. unfold select_prog. cbn zeta. split; [eexists; unfold with_polls at 1; reflexivity|]. unfold with_polls at 1. cbn [hits]. rewrite HP.
  destruct (select_total P g c v Z0 U) as (e & v' & a & E & _). unfold select_mem in E. cbn zeta in E.
  destruct (reserve (sc_mem c) (length g) v) as [[v1|] q] eqn:RV.
  - destruct (PollModel.fill _ _ _ _ _) as [v2|]; [|discriminate]. cbn [after hits]. auto.
  - unfold reserve in RV. destruct (length g <=? length (pv_cells v))%nat; [discriminate|]. destruct (sc_mem c); [discriminate|congruence].
Qed.

Definition accesses (es : list event) : Prop := Forall (fun e => exists t, e = Access t) es.

Lemma race_from : forall P g c d pc pd m l x, program P g c = pc -> program P g d = pd ->
  (hits pc m l /\ next_access pd = Some (l, x)) \/ (hits pd m l /\ next_access pc = Some (l, x)) ->
  exists es s, accesses es /\ steps P g (Begin 0 c :: Begin 1 d :: es) (Conf m (fun _ => None) []) = Some s /\ racing s.
Proof.
  intros P g c d pc pd m l x Ec Ed H.
  set (dd := set_thread 1 (Some (d, pd)) (set_thread 0 (Some (c, pc)) (fun _ => None))).
  assert (B : steps P g [Begin 0 c; Begin 1 d] (Conf m (fun _ => None) []) = Some (Conf m dd [])).
  { cbn [steps step doing mem_of log]. unfold set_thread at 1. cbn [Nat.eqb]. rewrite Ec, Ed. reflexivity. }
  assert (AC : forall t n, accesses (repeat (Access t) n)).
  { intros t n. apply Forall_forall. intros e Hin. apply repeat_spec in Hin. eauto. }
  destruct H as [[H N]|[H N]].
  - destruct (hits_steps P g pc m dd 0%nat 1%nat c (d, pd) l ltac:(lia) H) with (lg := @nil (nat * call * outcome reply)) as (n & m' & d' & v & p' & S & E1 & E2);
    [reflexivity|reflexivity|].
    exists (repeat (Access 0) n), (Conf m' d' []). split; [apply AC|]. split.
    + change (Begin 0 c :: Begin 1 d :: repeat (Access 0) n) with ([Begin 0 c; Begin 1 d] ++ repeat (Access 0) n).
      now rewrite (steps_app P g _ _ _ _ B).
    + exists 0%nat, 1%nat, c, d, (Wr l v p'), pd, l, true, x. repeat split; auto.
  - destruct (hits_steps P g pd m dd 1%nat 0%nat d (c, pc) l ltac:(lia) H) with (lg := @nil (nat * call * outcome reply)) as (n & m' & d' & v & p' & S & E1 & E2);
    [reflexivity|reflexivity|].
    exists (repeat (Access 1) n), (Conf m' d' []). split; [apply AC|]. split.
    + change (Begin 0 c :: Begin 1 d :: repeat (Access 1) n) with ([Begin 0 c; Begin 1 d] ++ repeat (Access 1) n).
      now rewrite (steps_app P g _ _ _ _ B).
    + exists 0%nat, 1%nat, c, d, pc, (Wr l v p'), l, x, true. repeat split; auto.
Qed.

Lemma in_range_true : forall g i, i < Z.of_nat (length g) -> negb (Z.of_nat (@length iface g) <=? i) = true.
Proof. intros g i H. apply negb_true_iff, Z.leb_gt. exact H. Qed.

Theorem clash_races : forall P s0 rest c d, Forall iface_typed (fst s0) -> pv_size (snd s0) = 0%nat ->
  proper P (fst s0) c -> proper P (fst s0) d -> has_work (fst s0) c -> has_work (fst s0) d -> clash c d ->
  exists es s, accesses es /\ steps P (fst s0) (Begin 0 c :: Begin 1 d :: es) (start s0 rest) = Some s /\ racing s.
Proof.
  intros P s0 rest c d T Z0 Pc Pd Wc Wd C. unfold start. set (m := memory_of s0 rest). set (g := fst s0) in *.
  assert (V : forall i, 0 <= i -> i < Z.of_nat (length g) -> sound (Z.to_nat i) m).
  { intros i I0 I1. destruct (nth_error g (Z.to_nat i)) as [f|] eqn:E; [|apply nth_error_None in E; lia].
    apply (sound_start s0 rest _ f); auto. eapply Forall_forall in T; [exact T|eapply nth_error_In; exact E]. }
  destruct C as [(N & E & K)|(S1 & S2)].
  - destruct c as [i k fs n cnt|i res e ms out cnt|i|cc|fu an cf nu|i|]; try (now destruct N);
    destruct d as [i' k' fs' n' cnt'|i' res' e' ms' out' cnt'|i'|cc'|fu' an' cf' nu'|i'|]; try discriminate E; cbn in E; injection E as <-;
    cbn [is_read is_write] in K; try (exfalso; intuition discriminate); clear K N; cbn [proper has_work] in *.
    + destruct Pc as (I0 & TF & Hn), Wc as (I1 & Hn1), Pd as (_ & TF' & Hn'), Wd as (_ & Hn1').
      destruct (write_first (Z.to_nat i) k fs n m (V i I0 I1) TF ltac:(lia)) as [_ H].
      destruct (write_first (Z.to_nat i) k' fs' n' m (V i I0 I1) TF' ltac:(lia)) as [[q Q] _].
      eapply (race_from P g _ _ _ _ m (Slot (Z.to_nat i) 0) false); [reflexivity|reflexivity|left].
      cbn [program]. rewrite in_range_true by auto. rewrite Q. auto.
    + destruct Pc as (I0 & TF & Hn), Wc as (I1 & Hn1), Pd as (_ & RO & TF'), Wd as (_ & Hr).
      destruct (write_first (Z.to_nat i) k fs n m (V i I0 I1) TF ltac:(lia)) as [_ H].
      destruct (read_first (Z.to_nat i) res' e' ms' out' m (V i I0 I1) RO Hr) as [[q Q] _].
      eapply (race_from P g _ _ _ _ m (Slot (Z.to_nat i) 0) false); [reflexivity|reflexivity|left].
      cbn [program]. rewrite in_range_true by auto. rewrite Q. auto.
    + destruct Pc as (I0 & RO & TF), Wc as (I1 & Hr), Pd as (_ & TF' & Hn'), Wd as (_ & Hn1').
      destruct (read_first (Z.to_nat i) res e ms out m (V i I0 I1) RO Hr) as [_ H].
      destruct (write_first (Z.to_nat i) k' fs' n' m (V i I0 I1) TF' ltac:(lia)) as [[q Q] _].
      eapply (race_from P g _ _ _ _ m (Slot (Z.to_nat i) 0) false); [reflexivity|reflexivity|left].
      cbn [program]. rewrite in_range_true by auto. rewrite Q. auto.
    + destruct Pc as (I0 & RO & TF), Wc as (I1 & Hr), Pd as (_ & RO' & TF'), Wd as (_ & Hr').
      destruct (read_first (Z.to_nat i) res e ms out m (V i I0 I1) RO Hr) as [_ H].
      destruct (read_first (Z.to_nat i) res' e' ms' out' m (V i I0 I1) RO' Hr') as [[q Q] _].
      eapply (race_from P g _ _ _ _ m (Slot (Z.to_nat i) 0) false); [reflexivity|reflexivity|left].
      cbn [program]. rewrite in_range_true by auto. rewrite Q. auto.
    + destruct Pc as (I0 & RO & TF), Wc as (I1 & Hr).
      eapply (race_from P g _ _ _ _ m (Stat (Z.to_nat i)) false); [reflexivity|reflexivity|left].
      cbn [program]. rewrite in_range_true by auto. split; [|reflexivity]. now apply read_hits; auto.
    + destruct Pd as (I0 & RO & TF), Wd as (I1 & Hr).
      eapply (race_from P g _ _ _ _ m (Stat (Z.to_nat i)) false); [reflexivity|reflexivity|right].
      cbn [program]. rewrite in_range_true by auto. split; [|reflexivity]. now apply read_hits; auto.
  - destruct c as [i k fs n cnt|i res e ms out cnt|i|cc|fu an cf nu|i|]; try discriminate S1.
    destruct d as [i' k' fs' n' cnt'|i' res' e' ms' out' cnt'|i'|cc'|fu' an' cf' nu'|i'|]; try discriminate S2.
    cbn [proper has_work] in *.
    destruct (select_first P g cc (snd s0) m) as [_ H]; auto; [apply Wc|].
    destruct (select_first P g cc' (snd s0) m) as [[q Q] _]; auto; [apply Wd|].
    eapply (race_from P g _ _ _ _ m Polls false); [reflexivity|reflexivity|left].
    cbn [program]. rewrite Q. auto.
Qed.

(** Executions given as lists of events. *)
Lemma steps_overlapped : forall P s0 es s s', overlapped P s0 anyhow s ->
  Forall (fun e => match e with Begin _ c => proper P (fst s0) c | _ => True end) es ->
  steps P (fst s0) es s = Some s' -> overlapped P s0 anyhow s'.
Proof.
  intros P s0 es. induction es as [|e es IH]; intros s s' R F E; cbn [steps] in E.
  - congruence.
  - destruct (step P (fst s0) e s) as [s1|] eqn:E1; [|discriminate]. inversion F as [|? ? Fe Fs]; subst.
    apply (IH s1); auto. apply (ov_step P s0 anyhow s e); auto. destruct e; auto. split; auto. exact Logic.I.
Qed.

(** A call that runs alone to its end. *)
Lemma run_steps : forall P g p m d t c lg, d t = Some (c, p) ->
  exists n d', steps P g (repeat (Access t) n ++ [End t]) (Conf m d lg) = Some (Conf (snd (run p m)) d' (lg ++ [(t, c, fst (run p m))])).
Proof.
  intros P g p. induction p as [o|l k IH|l v p IH]; intros m d t c lg E; cbn [run].
  - exists 0%nat. eexists. cbn [repeat app steps step doing]. rewrite E. reflexivity.
  - destruct (IH (m l) m (set_thread t (Some (c, k (m l))) d) t c lg (set_same _ _ _)) as (n & d' & ST).
    exists (S n), d'. cbn [repeat app steps step doing]. rewrite E. cbn [mem_of log]. exact ST.
  - destruct (IH (upd l v m) (set_thread t (Some (c, p)) d) t c lg (set_same _ _ _)) as (n & d' & ST).
    exists (S n), d'. cbn [repeat app steps step doing]. rewrite E. cbn [mem_of log]. exact ST.
Qed.

(** A thread that begins no call is in none. *)
Lemma idle_stays : forall P g t es s s', Forall (fun e => match e with Begin u _ => u <> t | _ => True end) es ->
  doing s t = None -> steps P g es s = Some s' -> doing s' t = None.
Proof.
  intros P g t es. induction es as [|e es IH]; intros s s' F N E; cbn [steps] in E; [congruence|].
  inversion F as [|? ? Fe Fs]; subst. destruct (step P g e s) as [s1|] eqn:E1; [|discriminate]. apply (IH s1 s'); auto.
  destruct e as [u c|u|u]; cbn [step] in E1; destruct (Nat.eq_dec t u) as [<-|D].
  - congruence.
  - destruct (doing s u); [discriminate|]. injection E1 as <-. cbn [doing]. now rewrite set_other.
  - rewrite N in E1. discriminate.
  - destruct (doing s u) as [[c [o|l k|l v p]]|]; try discriminate; injection E1 as <-; cbn [doing]; now rewrite set_other.
  - rewrite N in E1. discriminate.
  - destruct (doing s u) as [[c [o|l k|l v p]]|]; try discriminate; injection E1 as <-; cbn [doing]; now rewrite set_other.
Qed.

Lemma steps_split : forall P g a b s s', steps P g (a ++ b) s = Some s' -> exists s1, steps P g a s = Some s1 /\ steps P g b s1 = Some s'.
Proof.
  intros P g a. induction a as [|e a IH]; intros b s s' E; cbn [steps app] in *; [eauto|].
  destruct (step P g e s) as [s1|]; [|discriminate]. now apply IH.
Qed.

(** Three threads begin calls that do not clash. *)
Lemma three_begin : forall P s0 rest a b c s, proper P (fst s0) a -> proper P (fst s0) b -> proper P (fst s0) c ->
  ~ clash b a -> ~ clash c a -> ~ clash c b ->
  steps P (fst s0) [Begin 0 a; Begin 1 b; Begin 2 c] (start s0 rest) = Some s -> overlapped P s0 apart s.
Proof.
  intros P s0 rest a b c s Pa Pb Pc Nba Nca Ncb E.
  set (g := fst s0) in *. set (d1 := set_thread 0 (Some (a, program P g a)) (fun _ => None)).
  set (d2 := set_thread 1 (Some (b, program P g b)) d1).
  apply (ov_step _ _ _ (Conf (memory_of s0 rest) d2 []) (Begin 2 c)); [|split; auto|].
  - apply (ov_step _ _ _ (Conf (memory_of s0 rest) d1 []) (Begin 1 b)); [|split; auto|reflexivity].
    + apply (ov_step _ _ _ (start s0 rest) (Begin 0 a)); [constructor|split; auto|reflexivity].
      intros c' (u & p & D). discriminate D.
    + intros c' (u & p & D). cbn [doing] in D. unfold d1, set_thread in D. destruct (u =? 0)%nat; [|discriminate]. injection D as <- _. exact Nba.
  - intros c' (u & p & D). cbn [doing] in D. unfold d2, d1, set_thread in D.
    destruct (u =? 1)%nat; [injection D as <- _; exact Ncb|]. destruct (u =? 0)%nat; [injection D as <- _; exact Nca|discriminate].
  - exact E.
Qed.

Lemma continue_apart : forall P s0 es s s', Forall (fun e => match e with Begin _ _ => False | _ => True end) es ->
  overlapped P s0 apart s -> steps P (fst s0) es s = Some s' -> overlapped P s0 apart s'.
Proof.
  intros P s0 es. induction es as [|e es IH]; intros s s' F R E; cbn [steps] in E; [congruence|].
  destruct (step P (fst s0) e s) as [s1|] eqn:E1; [|discriminate]. inversion F as [|? ? Fe Fs]; subst.
  apply (IH s1); auto. apply (ov_step _ _ _ s e); auto. now destruct e.
Qed.
