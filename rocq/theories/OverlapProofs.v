(** Proofs about overlapping calls of an interface group. *)
From Coq Require Import ZArith Bool String List Lia Arith.
From Verif Require Import Outcome ResultModel CInt SatMathModel TimeModel CanFrameModel SocketCanModel SocketCanSpec SocketCanProofs
  GroupModel PollModel PollProofs OverlapModel OverlapSpec.
Import ListNotations.
Open Scope Z_scope.

(** ** Running a call alone *)
Fixpoint run (p : prog) (m : memory) : outcome reply * memory :=
  match p with
  | Done o => (o, m)
  | Rd l k => run (k (m l)) m
  | Wr l v p => run p (upd l v m)
  end.

(** What a call may write, and what it may read besides. *)
Definition writes (c : call) (l : loc) : bool :=
  match c, l with
  | Write i _ _ _ _, Slot j _ => (j =? Z.to_nat i)%nat
  | Read i _ _ _ _ _, Slot j _ | Read i _ _ _ _ _, Ctl j _ | Read i _ _ _ _ _, Stat j => (j =? Z.to_nat i)%nat
  | Select _, Polls => true
  | _, _ => false
  end.
Definition touches (c : call) (l : loc) : bool :=
  writes c l ||
  match c, l with
  | Write i _ _ _ _, Ctl j _ | Statistics i, Stat j => (j =? Z.to_nat i)%nat
  | _, _ => false
  end.

Fixpoint within (c : call) (p : prog) : Prop :=
  match p with
  | Done _ => True
  | Rd l k => touches c l = true /\ forall v, within c (k v)
  | Wr l v p => writes c l = true /\ within c p
  end.

Lemma writes_touches : forall c l, writes c l = true -> touches c l = true.
Proof. intros c l H. unfold touches. now rewrite H. Qed.

Definition index_ok (c : call) : Prop := match interface_of c with Some i => 0 <= i | None => True end.

Lemma proper_index : forall P g c, proper P g c -> index_ok c.
Proof. intros P g [] H; cbn in *; unfold index_ok; cbn; auto; tauto. Qed.

Lemma apart_disjoint : forall a b l, index_ok a -> index_ok b -> ~ clash a b -> writes a l = true -> touches b l = true -> False.
Proof.
  intros a b l Ia Ib N W T. apply N. unfold clash.
  destruct a as [i k fs n cnt|i res e ms out cnt|i|c|fu an cf nu|i|]; destruct l as [j q|j q|j|]; try discriminate W;
  destruct b as [i' k' fs' n' cnt'|i' res' e' ms' out' cnt'|i'|c'|fu' an' cf' nu'|i'|]; try discriminate T;
  unfold touches in T; cbn in *; unfold index_ok in *; cbn in *; try (right; split; reflexivity);
  left; split; try discriminate; try rewrite orb_false_r in T;
  apply Nat.eqb_eq in W; apply Nat.eqb_eq in T;
  (split; [f_equal; apply Z2Nat.inj; auto; congruence|auto]).
Qed.

Lemma clash_sym : forall a b, clash a b -> clash b a.
Proof. intros a b [[N [E H]]|[A B]]; [left|right; auto]. split; [congruence|]. split; [congruence|]. tauto. Qed.

(** Every call stays within its bounds. *)
Ltac wi := repeat (cbn [within after with_slot with_ctl with_stat with_polls]; match goal with
  | |- _ /\ _ => split
  | |- True => exact Logic.I
  | |- forall _, _ => intro
  | |- within _ (match ?x with _ => _ end) => destruct x
  | |- within _ (after ?x _) => destruct x
  | |- touches _ _ = true => unfold touches; cbn; rewrite ?Nat.eqb_refl, ?orb_true_r; reflexivity
  | |- writes _ _ = true => cbn; rewrite ?Nat.eqb_refl; reflexivity
  end).

Lemma fill_within : forall i k0 fs0 n0 cnt n k fs next, within (Write i k0 fs0 n0 cnt) next ->
  within (Write i k0 fs0 n0 cnt) (fill_prog (Z.to_nat i) n k fs next).
Proof.
  intros i k0 fs0 n0 cnt n. induction n as [|n IH]; intros k fs next H; [exact H|]. cbn [fill_prog].
  destruct (nth_error fs k); [|exact Logic.I]. destruct (k <? RxFramesLen)%nat; [|exact Logic.I]. wi. now apply IH.
Qed.

Lemma send_within : forall i k0 fs0 n0 cnt n k sent next, (forall x, within (Write i k0 fs0 n0 cnt) (next x)) ->
  within (Write i k0 fs0 n0 cnt) (send_prog (Z.to_nat i) n k sent next).
Proof.
  intros i k0 fs0 n0 cnt n. induction n as [|n IH]; intros k sent next H; [apply H|]. cbn [send_prog]. wi. now apply IH.
Qed.

Lemma recv_within : forall i r e ms o cnt msgs k next, within (Read i r e ms o cnt) next ->
  within (Read i r e ms o cnt) (recv_prog (Z.to_nat i) k msgs next).
Proof.
  intros i r e ms o cnt msgs. induction msgs as [|m msgs IH]; intros k next H; [exact H|]. cbn [recv_prog]. wi. now apply IH.
Qed.

Lemma look_within : forall i r e ms o cnt n k out count next, (forall x y, within (Read i r e ms o cnt) (next x y)) ->
  within (Read i r e ms o cnt) (look_prog (Z.to_nat i) n k out count next).
Proof.
  intros i r e ms o cnt n. induction n as [|n IH]; intros k out count next H; [apply H|]. cbn [look_prog].
  destruct (nth_error out count); [|exact Logic.I]. wi; now apply IH.
Qed.

Lemma program_within : forall P g c, within c (program P g c).
Proof.
  intros P g [i k fs n cnt|i res e ms out cnt|i|c|fu an cf nu|i|]; cbn [program];
  try (destruct (negb (Z.of_nat (length g) <=? i)); [|exact Logic.I]); try exact Logic.I.
  - unfold write_prog. destruct (n =? 0)%nat; [exact Logic.I|]. apply fill_within, send_within. intro sent. wi.
  - unfold read_prog. destruct (res <=? 0); [exact Logic.I|]. apply recv_within, look_within. intros x y. wi.
  - wi.
  - unfold select_prog. wi.
Qed.

(** A call depends only on what it touches and changes only what it writes. *)
Lemma run_outside : forall c p m l, within c p -> writes c l = false -> snd (run p m) l = m l.
Proof.
  intros c p. induction p as [o|l0 k IH|l0 v p IH]; intros m l W N; cbn [run].
  - reflexivity.
  - apply IH; auto. apply W.
  - destruct W as [W1 W2]. rewrite IH; auto. unfold upd. destruct (loc_eq_dec l l0) as [->|D]; [congruence|reflexivity].
Qed.

Lemma run_agree : forall c p m m', within c p -> (forall l, touches c l = true -> m l = m' l) ->
  fst (run p m) = fst (run p m') /\ forall l, touches c l = true -> snd (run p m) l = snd (run p m') l.
Proof.
  intros c p. induction p as [o|l0 k IH|l0 v p IH]; intros m m' W A; cbn [run].
  - auto.
  - destruct W as [W1 W2]. rewrite (A l0 W1). apply IH; auto.
  - destruct W as [W1 W2]. apply IH; auto. intros l T. unfold upd. destruct (loc_eq_dec l l0); auto.
Qed.

(** ** One after the other, in memory *)
Fixpoint run_all (P : platform) (g : group) (cs : list call) (m : memory) : list (outcome reply) * memory :=
  match cs with
  | [] => ([], m)
  | c :: rest => let '(o, m1) := run (program P g c) m in let '(os, m2) := run_all P g rest m1 in (o :: os, m2)
  end.

Lemma run_all_app : forall P g a b m,
  run_all P g (a ++ b) m = (fst (run_all P g a m) ++ fst (run_all P g b (snd (run_all P g a m))),
                            snd (run_all P g b (snd (run_all P g a m)))).
Proof.
  intros P g a. induction a as [|c a IH]; intros b m; cbn [run_all app fst snd].
  - now destruct (run_all P g b m).
  - destruct (run (program P g c) m) as [o m1]. rewrite IH.
    destruct (run_all P g a m1) as [os m2]. cbn [fst snd]. reflexivity.
Qed.

(** ** The invariant of executions without clashes *)
Record Inv (P : platform) (g : group) (m0 : memory) (s : conf) : Prop := {
  i_log : answers_of (log s) = fst (run_all P g (calls_of (log s)) m0);
  i_thr : forall t c p, doing s t = Some (c, p) -> index_ok c /\ within c p /\
            fst (run p (mem_of s)) = fst (run (program P g c) (snd (run_all P g (calls_of (log s)) m0))) /\
            forall l, writes c l = true ->
              snd (run p (mem_of s)) l = snd (run (program P g c) (snd (run_all P g (calls_of (log s)) m0))) l;
  i_mem : forall l, (forall t c p, doing s t = Some (c, p) -> writes c l = false) ->
            mem_of s l = snd (run_all P g (calls_of (log s)) m0) l;
  i_apart : forall t u c d p q, t <> u -> doing s t = Some (c, p) -> doing s u = Some (d, q) -> ~ clash c d
}.

Lemma set_same : forall t x d, set_thread t x d t = x.
Proof. intros. unfold set_thread. now rewrite Nat.eqb_refl. Qed.
Lemma set_other : forall t x d u, u <> t -> set_thread t x d u = d u.
Proof. intros t x d u H. unfold set_thread. destruct (Nat.eqb_spec u t); [contradiction|reflexivity]. Qed.

Lemma inv_start : forall P g m0, Inv P g m0 (Conf m0 (fun _ => None) []).
Proof. intros. constructor; cbn; auto; discriminate. Qed.

Lemma inv_begin : forall P g m0 s t c, Inv P g m0 s -> index_ok c -> doing s t = None ->
  (forall u d q, doing s u = Some (d, q) -> ~ clash c d) ->
  Inv P g m0 (Conf (mem_of s) (set_thread t (Some (c, program P g c)) (doing s)) (log s)).
Proof.
  intros P g m0 s t c IV Ic N A. destruct IV as [L T M Q].
  constructor; cbn [log mem_of doing].
  - exact L.
  - intros u d p E. destruct (Nat.eq_dec u t) as [->|D].
    + rewrite set_same in E. injection E as <- <-. split; [auto|]. split; [apply program_within|].
      assert (G : forall l, touches c l = true -> mem_of s l = snd (run_all P g (calls_of (log s)) m0) l).
      { intros l Tl. apply M. intros u d p E. destruct (writes d l) eqn:W; [|reflexivity]. exfalso.
        destruct (T u d p E) as [Id _].
        apply (apart_disjoint d c l); auto. intro K. apply (A u d p E). now apply clash_sym. }
      destruct (run_agree c (program P g c) _ _ (program_within P g c) G) as [R1 R2].
      split; auto. intros l W. apply R2. now apply writes_touches.
    + rewrite set_other in E by auto. now apply (T u d p).
  - intros l H. apply M. intros u d p E. apply (H u d p). destruct (Nat.eq_dec u t) as [->|D]; [congruence|now rewrite set_other].
  - intros u v d e p q D E1 E2.
    destruct (Nat.eq_dec u t) as [->|Du]; destruct (Nat.eq_dec v t) as [->|Dv]; try contradiction.
    + rewrite set_same in E1. rewrite set_other in E2 by auto. injection E1 as <- <-. now apply (A v e q).
    + rewrite set_same in E2. rewrite set_other in E1 by auto. injection E2 as <- <-. intro K. apply (A u d p E1). now apply clash_sym.
    + rewrite set_other in E1, E2 by auto. now apply (Q u v d e p q).
Qed.

Lemma inv_read : forall P g m0 s t c l k, Inv P g m0 s -> doing s t = Some (c, Rd l k) ->
  Inv P g m0 (Conf (mem_of s) (set_thread t (Some (c, k (mem_of s l))) (doing s)) (log s)).
Proof.
  intros P g m0 s t c l k IV E. destruct IV as [L T M Q]. constructor; cbn [log mem_of doing].
  - exact L.
  - intros u d p E1. destruct (Nat.eq_dec u t) as [->|D].
    + rewrite set_same in E1. injection E1 as <- <-. destruct (T t c _ E) as (Ic & [W1 W2] & R). cbn [run] in R.
      split; [auto|]. split; [apply W2|exact R].
    + rewrite set_other in E1 by auto. now apply (T u d p).
  - intros l0 H. apply M. intros u d p E1. destruct (Nat.eq_dec u t) as [->|D].
    + apply (H t d (k (mem_of s l))). rewrite set_same. congruence.
    + apply (H u d p). now rewrite set_other.
  - intros u v d e p q D E1 E2.
    destruct (Nat.eq_dec u t) as [->|Du]; destruct (Nat.eq_dec v t) as [->|Dv]; try contradiction.
    + rewrite set_same in E1. rewrite set_other in E2 by auto. injection E1 as <- <-. now apply (Q t v c e (Rd l k) q).
    + rewrite set_same in E2. rewrite set_other in E1 by auto. injection E2 as <- <-. now apply (Q u t d c p (Rd l k)).
    + rewrite set_other in E1, E2 by auto. now apply (Q u v d e p q).
Qed.

Lemma inv_write : forall P g m0 s t c l v r, Inv P g m0 s -> doing s t = Some (c, Wr l v r) ->
  Inv P g m0 (Conf (upd l v (mem_of s)) (set_thread t (Some (c, r)) (doing s)) (log s)).
Proof.
  intros P g m0 s t c l v r IV E. destruct IV as [L T M Q].
  destruct (T t c _ E) as (Ic & [W1 W2] & R). cbn [run] in R.
  constructor; cbn [log mem_of doing].
  - exact L.
  - intros u d p E1. destruct (Nat.eq_dec u t) as [->|D].
    + rewrite set_same in E1. injection E1 as <- <-. split; [auto|]. split; [exact W2|exact R].
    + rewrite set_other in E1 by auto. destruct (T u d p E1) as (Id & Wd & R1 & R2).
      assert (G : forall x, touches d x = true -> upd l v (mem_of s) x = mem_of s x).
      { intros x Tx. unfold upd. destruct (loc_eq_dec x l) as [->|]; [|reflexivity]. exfalso.
        apply (apart_disjoint c d l); auto. apply (Q t u c d (Wr l v r) p); auto. }
      destruct (run_agree d p _ _ Wd G) as [G1 G2].
      split; [auto|]. split; [auto|]. split; [congruence|]. intros x Wx. rewrite G2 by now apply writes_touches. auto.
  - intros x H. unfold upd. destruct (loc_eq_dec x l) as [->|D].
    + rewrite (H t c r) in W1; [discriminate|]. now rewrite set_same.
    + apply M. intros u d p E1. destruct (Nat.eq_dec u t) as [->|Du].
      * apply (H t d r). rewrite set_same. congruence.
      * apply (H u d p). now rewrite set_other.
  - intros u w d e p q D E1 E2.
    destruct (Nat.eq_dec u t) as [->|Du]; destruct (Nat.eq_dec w t) as [->|Dv]; try contradiction.
    + rewrite set_same in E1. rewrite set_other in E2 by auto. injection E1 as <- <-. now apply (Q t w c e (Wr l v r) q).
    + rewrite set_same in E2. rewrite set_other in E1 by auto. injection E2 as <- <-. now apply (Q u t d c p (Wr l v r)).
    + rewrite set_other in E1, E2 by auto. now apply (Q u w d e p q).
Qed.

Lemma calls_snoc : forall l x, calls_of (l ++ [x]) = calls_of l ++ [snd (fst x)].
Proof. intros. unfold calls_of. now rewrite map_app. Qed.
Lemma answers_snoc : forall l x, answers_of (l ++ [x]) = answers_of l ++ [snd x].
Proof. intros. unfold answers_of. now rewrite map_app. Qed.

Lemma inv_end : forall P g m0 s t c o, Inv P g m0 s -> doing s t = Some (c, Done o) ->
  Inv P g m0 (Conf (mem_of s) (set_thread t None (doing s)) (log s ++ [(t, c, o)])).
Proof.
  intros P g m0 s t c o IV E. destruct IV as [L T M Q].
  destruct (T t c _ E) as (Ic & _ & R1 & R2). cbn [run fst snd] in R1, R2.
  set (M0 := snd (run_all P g (calls_of (log s)) m0)) in *.
  assert (NM : snd (run_all P g (calls_of (log s ++ [(t, c, o)])) m0) = snd (run (program P g c) M0)).
  { rewrite calls_snoc, run_all_app. cbn [fst snd run_all]. fold M0. now destruct (run (program P g c) M0). }
  constructor; cbn [log mem_of doing].
  - rewrite answers_snoc, calls_snoc, run_all_app. cbn [fst snd run_all]. fold M0. rewrite L. f_equal.
    destruct (run (program P g c) M0) as [o' m']. cbn [fst] in *. now subst.
  - intros u d p E1. destruct (Nat.eq_dec u t) as [->|D]; [rewrite set_same in E1; discriminate|].
    rewrite set_other in E1 by auto. destruct (T u d p E1) as (Id & Wd & S1 & S2). rewrite NM.
    assert (G : forall x, touches d x = true -> M0 x = snd (run (program P g c) M0) x).
    { intros x Tx. symmetry. apply (run_outside c); [apply program_within|].
      destruct (writes c x) eqn:W; [|reflexivity]. exfalso. apply (apart_disjoint c d x); auto.
      apply (Q t u c d (Done o) p); auto. }
    destruct (run_agree d (program P g d) _ _ (program_within P g d) G) as [G1 G2].
    split; [auto|]. split; [auto|]. split; [congruence|]. intros l W. rewrite <- G2 by now apply writes_touches. auto.
  - intros l H. rewrite NM. destruct (writes c l) eqn:W; [auto|].
    rewrite (run_outside c) by (auto; apply program_within). apply M. intros u d p E1.
    destruct (Nat.eq_dec u t) as [->|D]; [congruence|]. apply (H u d p). now rewrite set_other.
  - intros u w d e p q D E1 E2.
    destruct (Nat.eq_dec u t) as [->|Du]; [rewrite set_same in E1; discriminate|].
    destruct (Nat.eq_dec w t) as [->|Dv]; [rewrite set_same in E2; discriminate|].
    rewrite set_other in E1, E2 by auto. now apply (Q u w d e p q).
Qed.

Lemma overlapped_inv : forall P s0 s, overlapped P s0 apart s -> exists rest, Inv P (fst s0) (memory_of s0 rest) s.
Proof.
  intros P s0 s R. induction R as [rest|s e s' R [rest IV] OK E].
  - exists rest. apply inv_start.
  - exists rest. destruct e as [t c|t|t]; cbn [step] in E.
    + destruct (doing s t) eqn:D; [discriminate|]. injection E as <-. destruct OK as [Pc Ac].
      apply inv_begin; auto; [now apply (proper_index P (fst s0))|]. intros u d q E1. apply Ac. eauto.
    + destruct (doing s t) as [[c [o|l k|l v p]]|] eqn:D; try discriminate; injection E as <-.
      * now apply inv_read.
      * now apply inv_write.
    + destruct (doing s t) as [[c [o|l k|l v p]]|] eqn:D; try discriminate. injection E as <-. now apply inv_end.
Qed.
