(** Proofs about the constants. *)
From Coq Require Import Bool List Arith ZArith Lia.
From Verif Require Import ConstModel ConstSpec.
Import ListNotations.

Lemma looks_through_iff v : looks_through v = true <-> since_14 v.
Proof. unfold looks_through, since_14. apply Z.leb_le. Qed.

Lemma by_value_cons v t w : by_value v (t :: w) <-> (only_value v t /\ Forall (passes v) w) \/ by_value v w.
Proof.
  split.
  - intros (b & u & a & E & O & F). destruct b as [|x b]; cbn in E; injection E as -> ->.
    + left. split; assumption.
    + right. exists b, u, a. split; [reflexivity | split; assumption].
  - intros [(O & F) | (b & u & a & -> & O & F)].
    + exists [], t, w. split; [reflexivity | split; assumption].
    + exists (t :: b), u, a. split; [reflexivity | split; assumption].
Qed.

Lemma by_value_nil v : ~ by_value v [].
Proof. intros (b & u & a & E & _). destruct b; discriminate E. Qed.

(** What the function collects, along a way that starts below a conversion or not. *)
Definition collected (v : Z) (conv : bool) (e : expr) (c : constant) : Prop :=
  exists way, part e way = Some (Name c) /\ ~ by_value v way /\ (conv = true -> ~ Forall (passes v) way).

Lemma turn_step v conv conv' t w :
  (conv' = true <-> only_value v t \/ (conv = true /\ passes v t)) ->
  ((~ by_value v (t :: w) /\ (conv = true -> ~ Forall (passes v) (t :: w))) <-> (~ by_value v w /\ (conv' = true -> ~ Forall (passes v) w))).
Proof.
  intros E. rewrite by_value_cons.
  assert (F : Forall (passes v) (t :: w) <-> passes v t /\ Forall (passes v) w).
  { split; [intros H; inversion H; subst; split; assumption | intros (A & B); constructor; assumption]. }
  rewrite F, E. tauto.
Qed.

Lemma collected_turn v conv conv' e t x c :
  take e t = Some x -> (conv' = true <-> only_value v t \/ (conv = true /\ passes v t)) ->
  collected v conv' x c -> collected v conv e c.
Proof.
  intros T E (w & P & H). exists (t :: w). cbn [part]. rewrite T. split; [exact P|]. apply (turn_step v conv conv' t w E). exact H.
Qed.

Lemma collected_inv v conv e c :
  collected v conv e c ->
  (e = Name c /\ conv = false) \/
  exists t x, take e t = Some x /\ forall conv', (conv' = true <-> only_value v t \/ (conv = true /\ passes v t)) -> collected v conv' x c.
Proof.
  intros (w & P & H). destruct w as [|t w].
  - left. injection P as ->. split; [reflexivity|]. destruct conv; [|reflexivity]. destruct H as (_ & H). destruct (H eq_refl). constructor.
  - right. cbn [part] in P. destruct (take e t) as [x|] eqn:T; [|discriminate]. exists t, x. split; [exact T|]. intros conv' E.
    exists w. split; [exact P|]. apply (turn_step v conv conv' t w E). exact H.
Qed.

Lemma turns v conv :
  (true = true <-> only_value v OfConvert \/ (conv = true /\ passes v OfConvert)) /\
  (false = true <-> only_value v OfBind \/ (conv = true /\ passes v OfBind)) /\
  (true = true <-> only_value v Condition \/ (conv = true /\ passes v Condition)) /\
  (conv && looks_through v = true <-> only_value v Then \/ (conv = true /\ passes v Then)) /\
  (conv && looks_through v = true <-> only_value v Else \/ (conv = true /\ passes v Else)) /\
  (looks_through v = true <-> only_value v Before \/ (conv = true /\ passes v Before)) /\
  (conv && looks_through v = true <-> only_value v After \/ (conv = true /\ passes v After)) /\
  (looks_through v = true <-> only_value v OfDiscard \/ (conv = true /\ passes v OfDiscard)) /\
  (false = true <-> only_value v First \/ (conv = true /\ passes v First)) /\
  (false = true <-> only_value v Second \/ (conv = true /\ passes v Second)).
Proof.
  rewrite andb_true_iff, looks_through_iff. unfold only_value, passes.
  split; [|split; [|split; [|split; [|split; [|split; [|split; [|split; [|split]]]]]]]]; intuition (discriminate || auto).
Qed.

Lemma odr_uses_iff v e : forall conv c, In c (odr_uses v conv e) <-> collected v conv e c.
Proof.
  induction e as [n | | x IH | x IH | b IHb x IHx y IHy | x IHx y IHy | x IH | x IHx y IHy | x IH]; intros conv c;
    destruct (turns v conv) as (T1 & T2 & T3 & T4 & T5 & T6 & T7 & T8 & T9 & T10); cbn [odr_uses].
  - split.
    + destruct conv; [intros [] | intros [-> | []]]. exists []. split; [reflexivity|]. split; [apply by_value_nil | discriminate].
    + intros H. apply collected_inv in H. destruct H as [(E & ->) | (t & x & T & _)]; [injection E as ->; now left | destruct t; discriminate T].
  - split; [intros []|]. intros H. apply collected_inv in H. destruct H as [(E & _) | (t & x & T & _)]; [discriminate E | destruct t; discriminate T].
  - rewrite IH. split; [apply (collected_turn _ _ _ (Convert x) OfConvert); [reflexivity | exact T1]|].
    intros H. apply collected_inv in H. destruct H as [(E & _) | (t & z & T & H)]; [discriminate E|]. destruct t; try discriminate T; injection T as <-; auto.
  - rewrite IH. split; [apply (collected_turn _ _ _ (Bind x) OfBind); [reflexivity | exact T2]|].
    intros H. apply collected_inv in H. destruct H as [(E & _) | (t & z & T & H)]; [discriminate E|]. destruct t; try discriminate T; injection T as <-; auto.
  - rewrite !in_app_iff, IHb, IHx, IHy. split.
    + intros [H | [H | H]]; revert H; [apply (collected_turn _ _ _ _ Condition) | apply (collected_turn _ _ _ _ Then) | apply (collected_turn _ _ _ _ Else)];
        solve [reflexivity | assumption].
    + intros H. apply collected_inv in H. destruct H as [(E & _) | (t & z & T & H)]; [discriminate E|]. destruct t; try discriminate T; injection T as <-; auto.
  - rewrite !in_app_iff, IHx, IHy. split.
    + intros [H | H]; revert H; [apply (collected_turn _ _ _ _ Before) | apply (collected_turn _ _ _ _ After)]; solve [reflexivity | assumption].
    + intros H. apply collected_inv in H. destruct H as [(E & _) | (t & z & T & H)]; [discriminate E|]. destruct t; try discriminate T; injection T as <-; auto.
  - rewrite IH. split; [apply (collected_turn _ _ _ (Discard x) OfDiscard); [reflexivity | exact T8]|].
    intros H. apply collected_inv in H. destruct H as [(E & _) | (t & z & T & H)]; [discriminate E|]. destruct t; try discriminate T; injection T as <-; auto.
  - rewrite !in_app_iff, IHx, IHy. split.
    + intros [H | H]; revert H; [apply (collected_turn _ _ _ _ First) | apply (collected_turn _ _ _ _ Second)]; solve [reflexivity | assumption].
    + intros H. apply collected_inv in H. destruct H as [(E & _) | (t & z & T & H)]; [discriminate E|]. destruct t; try discriminate T; injection T as <-; auto.
  - split; [intros []|]. intros H. apply collected_inv in H. destruct H as [(E & _) | (t & z & T & _)]; [discriminate E | destruct t; discriminate T].
Qed.

Lemma odr_uses_object v e c : In c (odr_uses v false e) <-> used_as_object v e c.
Proof.
  rewrite odr_uses_iff. split; intros (w & P & H); exists w; (split; [exact P|]); [apply H | split; [exact H | discriminate]].
Qed.

Lemma definitions_some p c : (0 <? definitions p c)%nat = true <-> defined_by_program p c.
Proof.
  rewrite Nat.ltb_lt. unfold definitions, defined_by_program. induction (pieces p) as [|u us IH]; cbn.
  - split; [lia | intros (u & [] & _)].
  - destruct (in_dec constant_eq_dec c (defines u)) as [D | D]; cbn.
    + split; [intros _; exists u; auto | lia].
    + rewrite IH. split; intros (w & I & J); exists w; (split; [|exact J]); [now right|]. destruct I as [-> | I]; [contradiction | exact I].
Qed.

Lemma definitions_two p c : (1 <? definitions p c)%nat = true <-> defined_twice p c.
Proof.
  rewrite Nat.ltb_lt. unfold definitions, defined_twice. induction (pieces p) as [|u us IH]; cbn.
  - split; [lia | intros (a & u & b & w & d & E & _); destruct a; discriminate E].
  - destruct (in_dec constant_eq_dec c (defines u)) as [D | D]; cbn.
    + pose proof (definitions_some (Program 0 us []) c) as S1. rewrite Nat.ltb_lt in S1. unfold definitions, defined_by_program in S1. cbn [pieces] in S1.
      split.
      * intros L. destruct (proj1 S1 ltac:(lia)) as (w & I & J). apply in_split in I. destruct I as (l1 & l2 & ->).
        exists [], u, l1, w, l2. split; [reflexivity | split; assumption].
      * intros (a & x & b & w & d & E & I & J). assert (K : In w us).
        { destruct a as [|y a]; cbn in E; injection E as _ ->; apply in_or_app; right; [now left|]. right. apply in_or_app. right. now left. }
        pose proof (proj2 S1 (ex_intro _ w (conj K J))). lia.
    + rewrite IH. split.
      * intros (a & x & b & w & d & -> & I). exists (u :: a), x, b, w, d. split; [reflexivity | exact I].
      * intros (a & x & b & w & d & E & I & J). destruct a as [|y a]; cbn in E; injection E as -> ->; [contradiction|]. exists a, x, b, w, d. auto.
Qed.

Lemma in_program_iff p e : In e (all_expressions p) <-> in_program p e.
Proof. unfold all_expressions, in_program. rewrite in_app_iff, in_flat_map. reflexivity. Qed.

(** For one compiler. *)
Lemma links_iff k p :
  links k p = true <->
  (forall e c, in_program p e -> is_member c -> used_as_object (version p) e c -> k e c = true ->
     (201703 <= version p)%Z \/ defined_by_program p c) /\
  (forall s n, (version p < 201703)%Z -> ~ defined_twice p (Generated s n)).
Proof.
  unfold links. rewrite andb_true_iff, !forallb_forall.
  assert (W : forall c, In c (wanted k p) <-> exists e, in_program p e /\ used_as_object (version p) e c /\ k e c = true).
  { intros c. unfold wanted. rewrite in_flat_map. split; intros (e & I & J).
    - apply filter_In in J. rewrite odr_uses_object in J. apply in_program_iff in I. exists e. auto.
    - exists e. split; [now apply in_program_iff|]. apply filter_In. rewrite odr_uses_object. exact J. }
  assert (M : forall v, inline_members v = true <-> (201703 <= v)%Z) by (intros; unfold inline_members; apply Z.leb_le).
  split.
  - intros (A & B). split.
    + intros e c I Mb U K. assert (F : found p c = true) by (apply A, W; exists e; auto).
      destruct c as [g | m f | s n]; [destruct (Mb g eq_refl) | |]; cbn [found] in F; apply orb_true_iff in F; rewrite M, definitions_some in F; exact F.
    + intros s n V D. pose proof D as (us & u & vs & w & ws & E & I & _).
      assert (J : In (Generated s n) (flat_map defines (pieces p))).
      { apply in_flat_map. exists u. split; [rewrite E; apply in_or_app; right; now left | exact I]. }
      apply B in J. cbn [twice] in J. apply definitions_two in D. rewrite D, andb_true_r, negb_involutive in J. apply M in J. lia.
  - intros (A & B). split.
    + intros c I. apply W in I. destruct I as (e & I & U & K).
      destruct c as [g | m f | s n]; [reflexivity | |]; cbn [found]; apply orb_true_iff; rewrite M, definitions_some; apply (A e); try assumption; intros g; discriminate.
    + intros c I. destruct c as [g | m f | s n]; try reflexivity. cbn [twice].
      destruct (inline_members (version p)) eqn:V; [reflexivity|]. cbn [negb andb].
      destruct (1 <? definitions p (Generated s n))%nat eqn:D; [|reflexivity]. exfalso.
      apply (B s n); [|now apply definitions_two]. destruct (Z.lt_ge_cases (version p) 201703) as [L | L]; [exact L|]. apply M in L. congruence.
Qed.

Lemma same_everywhere_iff p :
  same_everywhere p = true <-> (length (pieces p) <= 1)%nat \/ forall e g, In e (shared p) -> ~ used_as_object (version p) e (Global g).
Proof.
  unfold same_everywhere. rewrite orb_true_iff, Nat.leb_le, forallb_forall. split; (intros [A | A]; [left; exact A | right]).
  - intros e g I U. apply odr_uses_object in U. assert (J : In (Global g) (flat_map (odr_uses (version p) false) (shared p))).
    { apply in_flat_map. exists e. split; assumption. }
    apply A in J. discriminate J.
  - intros c I. apply in_flat_map in I. destruct I as (e & I & U). destruct c as [g | |]; try reflexivity. apply odr_uses_object in U. destruct (A e g I U).
Qed.

Lemma correct_iff p :
  correct p <->
  (forall e c, in_program p e -> is_member c -> used_as_object (version p) e c -> (201703 <= version p)%Z \/ defined_by_program p c) /\
  (forall s n, (version p < 201703)%Z -> ~ defined_twice p (Generated s n)) /\
  ((length (pieces p) <= 1)%nat \/ forall e g, In e (shared p) -> ~ used_as_object (version p) e (Global g)).
Proof.
  unfold correct. rewrite same_everywhere_iff. split.
  - intros (L & S1). pose proof (proj1 (links_iff _ p) (L (fun _ _ => true))) as (A & B). split; [|split; [exact B | exact S1]].
    intros e c I M U. exact (A e c I M U eq_refl).
  - intros (A & B & S1). split; [|exact S1]. intros k. apply links_iff. split; [|exact B]. intros e c I M U _. exact (A e c I M U).
Qed.
