(** Proofs about including the headers of the library. *)
From Coq Require Import Bool List String ZArith Lia.
From Verif Require Import HeaderModel HeaderSpec.
Import ListNotations.
Open Scope string_scope.
Open Scope list_scope.

Lemma mem_In x l : mem x l = true <-> In x l.
Proof.
  unfold mem. rewrite existsb_exists. split; [intros (y & I & E); apply String.eqb_eq in E; now subst | intros I; exists x].
  split; [exact I | apply String.eqb_refl].
Qed.

Lemma guard_inj a b : guard a = guard b -> a = b.
Proof. destruct a, b; intros E; try reflexivity; discriminate E. Qed.

Lemma header_eqb_eq a b : header_eqb a b = true <-> a = b.
Proof. unfold header_eqb. rewrite String.eqb_eq. split; [apply guard_inj | now intros ->]. Qed.

(** The headers in an order in which each comes after those it includes. *)
Definition rank (h : header) : nat :=
  match h with
  | BuildConfig => 0 | Libuavcan => 1 | Introspection => 2 | Math => 3 | Time => 4 | Can => 5 | Interfaces => 6 | Memory => 7
  end.

Lemma includes_rank c h d : In (Lib d) (includes c h) -> rank d < rank h.
Proof.
  destruct c as [v n e [] []], h; cbn; intros I; repeat (destruct I as [I | I]; [try discriminate I; injection I as <-; cbn; lia|]); destruct I.
Qed.

Lemma rank_lt_8 h : rank h < 8.
Proof. destruct h; cbn; lia. Qed.

(** What holds of the state while the headers [opened] are being read. *)
Definition consistent (more : library) (c : settings) (opened : list header) (s : state) : Prop :=
  (forall h, In (guard h) (macros s) <-> In h (compiled s) \/ In h opened) /\
  NoDup (compiled s) /\
  (forall h, In h (compiled s) ->
     ~ In h opened /\ version_error c h = false /\
     (forall d, In (Lib d) (includes c h) -> In d (compiled s)) /\
     (forall x, In (Std x) (includes c h) -> In x (seen s)) /\
     (forall n, In n (uses c h) -> exists x, In x (seen s) /\ declares more x n = true) /\
     (forall d, In d (uses_of h) -> In d (compiled s))).

(** One state comes from another by including, at most, the headers that [h] reaches. *)
Definition grows (c : settings) (from : header -> Prop) (s t : state) : Prop :=
  incl (seen s) (seen t) /\ incl (compiled s) (compiled t) /\
  (forall h, In h (compiled t) -> In h (compiled s) \/ exists g, from g /\ reaches c g h) /\
  (forall x, In x (seen t) -> In x (seen s) \/ exists g h, from g /\ reaches c g h /\ In (Std x) (includes c h)).

(** Why including [h] fails. *)
Definition reason (more : library) (c : settings) (h : header) (s : state) : Prop :=
  exists g, reaches c h g /\ ~ In g (compiled s) /\
  (version_error c g = true \/
   exists t, incl (seen s) (seen t) /\ (forall d, In (Lib d) (includes c g) -> In d (compiled t)) /\
     (forall x, In (Std x) (includes c g) -> In x (seen t)) /\
     (forall k, In k (compiled t) -> (forall d, In (Lib d) (includes c k) -> In d (compiled t)) /\ (forall x, In (Std x) (includes c k) -> In x (seen t))) /\
     ((exists n, In n (uses c g) /\ forall x, In x (seen t) -> declares more x n = false) \/
      (exists d, In d (uses_of g) /\ ~ In d (compiled t)))).

Lemma grows_refl c from s : grows c from s s.
Proof. repeat split; try (intros x X; exact X); intros x X; now left. Qed.

Lemma grows_trans c from s t u : grows c from s t -> grows c from t u -> grows c from s u.
Proof.
  intros (A1 & A2 & A3 & A4) (B1 & B2 & B3 & B4). repeat split.
  - intros x X. apply B1, A1, X.
  - intros x X. apply B2, A2, X.
  - intros h X. destruct (B3 h X) as [Y | Y]; [exact (A3 h Y) | now right].
  - intros x X. destruct (B4 x X) as [Y | Y]; [exact (A4 x Y) | now right].
Qed.

Lemma grows_from c (f g : header -> Prop) s t : (forall h, f h -> exists k, g k /\ (k = h \/ In (Lib h) (includes c k))) -> grows c f s t -> grows c g s t.
Proof.
  assert (R : forall k h e, (k = h \/ In (Lib h) (includes c k)) -> reaches c h e -> reaches c k e)
    by (intros k h e [-> | I] R; [exact R | eapply Through; eassumption]).
  intros F (A1 & A2 & A3 & A4). repeat split; auto.
  - intros h X. destruct (A3 h X) as [Y | (p & P & Q)]; [now left|]. destruct (F p P) as (k & K & L). right. exists k. split; [exact K | now apply (R k p)].
  - intros x X. destruct (A4 x X) as [Y | (p & h & P & Q & Z)]; [now left|]. destruct (F p P) as (k & K & L). right. exists k, h.
    split; [exact K | split; [now apply (R k p) | exact Z]].
Qed.

Definition directives (include_lib : header -> state -> option state) (l : list directive) (s : state) : option state :=
  fold_left (fun r i => match r with None => None | Some t => match i with Std x => Some (see x t) | Lib d => include_lib d t end end) l (Some s).

Lemma directives_none f l : fold_left (fun r i => match r with None => None | Some t => match i with Std x => Some (see x t) | Lib d => f d t end end) l None
  = (None : option state).
Proof. induction l as [|[] l IH]; [reflexivity | exact IH | exact IH]. Qed.

Lemma see_consistent more c o x s : consistent more c o s -> consistent more c o (see x s).
Proof.
  intros (A & N & B). split; [exact A | split; [exact N|]]. intros h H. destruct (B h H) as (B0 & B1 & B2 & B3 & B4 & B5).
  repeat split; auto.
  - intros y Y. right. now apply B3.
  - intros n U. destruct (B4 n U) as (z & Z & D). exists z. split; [now right | exact D].
Qed.

Lemma include_case more c : forall k h s opened,
  rank h < k -> (forall o, In o opened -> rank h < rank o) -> consistent more c opened s ->
  match include k more c h s with
  | Some t => consistent more c opened t /\ In h (compiled t) /\ grows c (eq h) s t
  | None => reason more c h s
  end.
Proof.
  induction k as [|k IH]; intros h s opened R O C; [lia|]. cbn [include].
  destruct (mem (guard h) (macros s)) eqn:M.
  { apply mem_In in M. pose proof C as (A & N & B). apply A in M. destruct M as [M | M]; [|specialize (O h M); lia].
    split; [exact C | split; [exact M | apply grows_refl]]. }
  assert (NM : ~ In (guard h) (macros s)) by (intros X; apply mem_In in X; congruence). clear M.
  assert (Nc : ~ In h (compiled s)) by (intros X; apply NM, (proj1 C); now left).
  assert (No : ~ In h opened) by (intros X; specialize (O h X); lia).
  destruct (version_error c h) eqn:V; [exists h; split; [constructor | split; [exact Nc | now left]]|].
  assert (C0 : consistent more c (h :: opened) (define h s)).
  { destruct C as (A & N & B). split; [|split; [exact N|]].
    - intros g. cbn [define macros compiled]. cbn [In]. rewrite A. split.
      + intros [E | E]; [apply guard_inj in E; now right; left | tauto].
      + intros [E | [-> | E]]; tauto.
    - intros g G. cbn [define compiled] in *. destruct (B g G) as (B0 & B1). split; [|exact B1]. intros [-> | X]; [exact (Nc G) | exact (B0 X)]. }
  (* the directives *)
  assert (Q : forall l t, (forall d, In (Lib d) l -> In (Lib d) (includes c h)) -> consistent more c (h :: opened) t ->
    (match fold_left (fun r i => match r with None => None | Some t => match i with Std x => Some (see x t) | Lib d => include k more c d t end end) l (Some t) with
     | Some u => consistent more c (h :: opened) u /\ incl (seen t) (seen u) /\ incl (compiled t) (compiled u) /\
         (forall d, In (Lib d) l -> In d (compiled u)) /\ (forall x, In (Std x) l -> In x (seen u)) /\
         (forall g, In g (compiled u) -> In g (compiled t) \/ exists d, In (Lib d) l /\ reaches c d g) /\
         (forall x, In x (seen u) -> In x (seen t) \/ In (Std x) l \/ exists d g, In (Lib d) l /\ reaches c d g /\ In (Std x) (includes c g))
     | None => exists d u, In (Lib d) l /\ incl (seen t) (seen u) /\ incl (compiled t) (compiled u) /\ reason more c d u
     end)).
  { induction l as [|i l IHl]; intros t L Ct.
    - cbn [fold_left]. split; [exact Ct|]. repeat split; try (intros x X; exact X); try (intros x []); intros x X; now left.
    - cbn [fold_left]. destruct i as [x | d].
      + specialize (IHl (see x t) (fun d I => L d (or_intror I)) (see_consistent more c _ x t Ct)).
        destruct (fold_left _ l (Some (see x t))) as [u|].
        * destruct IHl as (U1 & U2 & U3 & U4 & U5 & U6 & U7). split; [exact U1|]. split; [|split; [exact U3|]].
          { intros y Y. apply U2. now right. }
          split; [intros d [E | I]; [discriminate E | now apply U4]|].
          split; [intros y [E | I]; [injection E as <-; apply U2; now left | now apply U5]|]. split.
          { intros g G. destruct (U6 g G) as [Y | (d & D & Z)]; [now left | right; exists d; split; [now right | exact Z]]. }
          { intros y Y. destruct (U7 y Y) as [[<- | Z] | [Z | (d & g & D & Z)]].
            - right. left. now left.
            - now left.
            - right. left. now right.
            - right. right. exists d, g. split; [now right | exact Z]. }
        * destruct IHl as (d & u & D & U1 & U2 & U3). exists d, u. split; [now right|]. split; [|split; assumption].
          intros y Y. apply U1. now right.
      + assert (D : rank d < rank h) by (apply (includes_rank c), L; now left).
        specialize (IH d t (h :: opened)). destruct (include k more c d t) as [u|].
        * destruct IH as (V1 & V2 & (V3 & V4 & V5 & V6)); [lia | intros o [<- | X]; [lia | specialize (O o X); lia] | exact Ct|].
          specialize (IHl u (fun e I => L e (or_intror I)) V1). destruct (fold_left _ l (Some u)) as [w|].
          { destruct IHl as (U1 & U2 & U3 & U4 & U5 & U6 & U7). split; [exact U1|].
            split; [intros y Y; apply U2, V3, Y|]. split; [intros y Y; apply U3, V4, Y|].
            split; [intros e [E | I]; [injection E as <-; apply U3, V2 | now apply U4]|].
            split; [intros y [E | I]; [discriminate E | now apply U5]|]. split.
            - intros g G. destruct (U6 g G) as [Y | (e & E & Z)]; [|right; exists e; split; [now right | exact Z]].
              destruct (V5 g Y) as [Y' | (e & <- & Z)]; [now left | right; exists d; split; [now left | exact Z]].
            - intros y Y. destruct (U7 y Y) as [Z | [Z | (e & g & E & Z)]].
              + destruct (V6 y Z) as [Z' | (e & g & <- & Z')]; [now left | right; right; exists d, g; split; [now left | exact Z']].
              + right. left. now right.
              + right. right. exists e, g. split; [now right | exact Z]. }
          { destruct IHl as (e & w & E & U1 & U2 & U3). exists e, w. split; [now right|].
            split; [intros y Y; apply U1, V3, Y | split; [intros y Y; apply U2, V4, Y | exact U3]]. }
        * rewrite directives_none. exists d, t. split; [now left|]. split; [intros y Y; exact Y | split; [intros y Y; exact Y|]].
          apply IH; [lia | intros o [<- | X]; [lia | specialize (O o X); lia] | exact Ct]. }
  specialize (Q (includes c h) (define h s) (fun d I => I) C0). destruct (fold_left _ (includes c h) (Some (define h s))) as [t|].
  - destruct Q as (U1 & U2 & U3 & U4 & U5 & U6 & U7). cbn [define seen compiled] in U2, U3, U6, U7. destruct (text_ok more c h t) eqn:T.
    + apply andb_true_iff in T. destruct T as (T1 & T2). rewrite forallb_forall in T1, T2. split; [|split; [now left|]].
      * destruct U1 as (A & N & B). split; [|split].
        -- intros g. cbn [finish macros compiled In]. rewrite A. cbn [In]. tauto.
        -- cbn [finish compiled]. constructor; [intros X; destruct (B h X) as (X' & _); apply X'; now left | exact N].
        -- intros g [<- | G].
           ++ split; [exact No | split; [exact V|]]. split; [intros d I; right; now apply U4|]. split; [exact U5|]. split.
              ** intros n I. specialize (T1 n I). apply existsb_exists in T1. exact T1.
              ** intros d I. specialize (T2 d I). apply existsb_exists in T2. destruct T2 as (e & E & F). apply header_eqb_eq in F. subst e. now right.
           ++ destruct (B g G) as (B0 & B1 & B2 & B3 & B4 & B5). split; [intros X; apply B0; now right | split; [exact B1|]].
              split; [intros d I; right; now apply B2|]. split; [exact B3|]. split; [exact B4 | intros d I; right; now apply B5].
      * repeat split; [exact U2 | intros g G; right; now apply U3 | |].
        -- intros g [<- | G]; [right; exists h; split; [reflexivity | constructor]|].
           destruct (U6 g G) as [X | (d & D & X)]; [now left | right; exists h; split; [reflexivity | eapply Through; eassumption]].
        -- intros x X. destruct (U7 x X) as [Y | [Y | (d & g & D & E & Y)]]; [now left | right; exists h, h | right; exists h, g].
           ++ split; [reflexivity | split; [constructor | exact Y]].
           ++ split; [reflexivity | split; [eapply Through; eassumption | exact Y]].
    + exists h. split; [constructor | split; [exact Nc | right]]. exists t. split; [exact U2 | split; [exact U4 | split; [exact U5 | split]]].
      { intros g G. destruct (proj2 (proj2 U1) g G) as (_ & _ & X & Y & _). split; assumption. }
      apply andb_false_iff in T. destruct T as [T | T]; [left | right].
      * assert (K : forall l, forallb (fun n => existsb (fun x => declares more x n) (seen t)) l = false ->
          exists n, In n l /\ forall x, In x (seen t) -> declares more x n = false).
        { induction l as [|n l IHl]; cbn; [discriminate|]. intros E. apply andb_false_iff in E. destruct E as [E | E].
          - exists n. split; [now left|]. intros x X. destruct (declares more x n) eqn:D; [|reflexivity].
            assert (Y : existsb (fun x => declares more x n) (seen t) = true) by (apply existsb_exists; now exists x). congruence.
          - destruct (IHl E) as (m & I & F). exists m. split; [now right | exact F]. }
        exact (K _ T).
      * assert (K : forall l, forallb (fun d => existsb (header_eqb d) (compiled t)) l = false -> exists d, In d l /\ ~ In d (compiled t)).
        { induction l as [|n l IHl]; cbn; [discriminate|]. intros E. apply andb_false_iff in E. destruct E as [E | E].
          - exists n. split; [now left|]. intros X. assert (Y : existsb (header_eqb n) (compiled t) = true)
              by (apply existsb_exists; exists n; split; [exact X | now apply header_eqb_eq]). congruence.
          - destruct (IHl E) as (m & I & F). exists m. split; [now right | exact F]. }
        exact (K _ T).
  - destruct Q as (d & u & D & U1 & U2 & (g & G1 & G2 & G3)). cbn [define seen compiled] in U1, U2. exists g.
    split; [eapply Through; eassumption | split; [intros X; apply G2, U2, X|]]. destruct G3 as [G3 | (t & T1 & T2)]; [now left | right].
    exists t. split; [intros x X; apply T1, U1, X | exact T2].
Qed.

(** Units. *)
Lemma compile_snoc more c defined u i :
  compile more c defined (u ++ [i]) = match compile more c defined u with None => None | Some s => directive_of more c i s end.
Proof. unfold compile. rewrite fold_left_app. reflexivity. Qed.

Lemma compile_case more c defined u : no_guards defined ->
  match compile more c defined u with
  | Some t => consistent more c [] t /\ (forall h, In h (compiled t) <-> exists g, In (Lib g) u /\ reaches c g h) /\
      (forall x, In x (seen t) <-> at_hand c u x)
  | None => exists before h after s, u = before ++ Lib h :: after /\ compile more c defined before = Some s /\ reason more c h s
  end.
Proof.
  intros G. induction u as [|i u IH] using rev_ind.
  - cbn. split; [|split].
    + split; [|split; [constructor | intros h []]]. intros h. cbn. split; [intros X; destruct (G h X) | tauto].
    + intros h. split; [intros [] | intros (g & [] & _)].
    + intros x. split; [intros [] | intros [[] | (g & h & [] & _)]].
  - rewrite compile_snoc. destruct (compile more c defined u) as [s|] eqn:E.
    + destruct IH as (C & A & B). destruct i as [x | h]; cbn [directive_of].
      * split; [now apply see_consistent | split].
        -- intros h. cbn [see compiled]. rewrite A. split; intros (g & I & R); exists g; (split; [|exact R]).
           ++ apply in_or_app. now left.
           ++ apply in_app_or in I. destruct I as [I | [I | []]]; [exact I | discriminate I].
        -- intros y. cbn [see seen In]. rewrite B. unfold at_hand. split.
           ++ intros [<- | [I | (g & h & I & R)]]; [left; apply in_or_app; right; now left | left; apply in_or_app; now left|].
              right. exists g, h. split; [apply in_or_app; now left | exact R].
           ++ intros [I | (g & h & I & R)]; apply in_app_or in I; destruct I as [I | [I | []]].
              ** right. now left.
              ** injection I as ->. now left.
              ** right. right. now exists g, h.
              ** discriminate I.
      * pose proof (include_case more c 8 h s [] (rank_lt_8 h) (fun o X => match X with end) C) as K.
        destruct (include 8 more c h s) as [t|].
        -- destruct K as (K1 & K2 & (K3 & K4 & K5 & K6)). split; [exact K1|].
           assert (Cl : forall d e, reaches c d e -> In d (compiled t) -> In e (compiled t)).
           { intros d e R. induction R as [|d e f I R IHR]; [auto|]. intros X. apply IHR. now apply (proj1 (proj2 (proj2 (proj2 (proj2 K1) d X)))). }
           split.
           ++ intros g. split.
              ** intros X. destruct (K5 g X) as [Y | (p & <- & R)].
                 --- apply A in Y. destruct Y as (p & I & R). exists p. split; [apply in_or_app; now left | exact R].
                 --- exists h. split; [apply in_or_app; right; now left | exact R].
              ** intros (p & I & R). apply in_app_or in I. destruct I as [I | [I | []]].
                 --- apply K4, A. now exists p.
                 --- injection I as ->. now apply (Cl p).
           ++ intros x. split.
              ** intros X. destruct (K6 x X) as [Y | (p & g & <- & R & S)].
                 --- apply B in Y. destruct Y as [Y | (p & g & I & R)]; [left; apply in_or_app; now left|].
                     right. exists p, g. split; [apply in_or_app; now left | exact R].
                 --- right. exists h, g. split; [apply in_or_app; right; now left | split; assumption].
              ** intros [I | (p & g & I & R & S)]; apply in_app_or in I; destruct I as [I | [I | []]].
                 --- apply K3, B. now left.
                 --- discriminate I.
                 --- apply K3, B. right. now exists p, g.
                 --- injection I as ->. assert (X : In g (compiled t)) by now apply (Cl p).
                     now apply (proj1 (proj2 (proj2 (proj2 (proj2 (proj2 K1) g X))))).
        -- exists u, h, [], s. split; [reflexivity | split; [exact E | exact K]].
    + destruct IH as (b & h & a & s & -> & X & Y). exists b, h, (a ++ [i]), s. split; [now rewrite <- app_assoc | split; assumption].
Qed.

Lemma compile_prefix more c defined u v : compile more c defined (u ++ v) <> None -> compile more c defined u <> None.
Proof.
  revert u. induction v as [|i v IH]; intros u; [now rewrite app_nil_r|].
  intros X E. specialize (IH (u ++ [i])). rewrite <- app_assoc in IH. specialize (IH X). rewrite compile_snoc, E in IH. now apply IH.
Qed.

Lemma version_error_iff c h : version_error c h = true <-> h = BuildConfig /\ ~ supported c.
Proof.
  unfold supported. destruct h; cbn; try (split; [discriminate | intros (E & _); discriminate E]).
  rewrite andb_true_iff, negb_true_iff, orb_true_iff, negb_true_iff, Z.leb_le, Z.ltb_ge. destruct (nocheck c); split.
  - intros (E & _). discriminate E.
  - intros (_ & N). exfalso. apply N. now left.
  - intros (_ & E). split; [reflexivity|]. intros [X | X]; [discriminate X | lia].
  - intros (_ & N). split; [reflexivity|]. lia.
Qed.

Lemma reaches_build_config c h : reaches c h BuildConfig.
Proof.
  assert (L : reaches c Libuavcan BuildConfig) by (apply (Through c _ BuildConfig); [now left | constructor]).
  destruct h; try exact L; try constructor; (apply (Through c _ Libuavcan); [cbn; tauto | exact L]).
Qed.

Lemma reached_from c h g : reaches c h g -> g = Can \/ g = Memory -> h = g.
Proof.
  intros R. induction R as [|h d e I R IH]; [reflexivity|]. intros E. specialize (IH E). subst e. exfalso.
  destruct c as [v n x [] []], h; cbn in I; repeat (destruct I as [I | I]; [try discriminate I; injection I as <-; now destruct E|]); destruct I.
Qed.

(** What the included headers are required to declare. *)
Lemma uses_required c g t :
  (forall d, In (Lib d) (includes c g) -> In d (compiled t)) -> (forall x, In (Std x) (includes c g) -> In x (seen t)) ->
  (forall k, In k (compiled t) -> (forall d, In (Lib d) (includes c k) -> In d (compiled t)) /\ (forall x, In (Std x) (includes c k) -> In x (seen t))) ->
  (forall n, In n (uses c g) -> taken_for_granted c g n \/ exists x, In x (seen t) /\ In n (required x)) /\
  (forall d, In d (uses_of g) -> In d (compiled t)).
Proof.
  intros D S K.
  assert (L : g = Libuavcan \/ g = BuildConfig \/ In Libuavcan (compiled t)) by (destruct g; auto; right; right; apply D; cbn; tauto).
  assert (LS : g <> BuildConfig -> forall x, In x ["cstdint"; "cinttypes"; "limits"; "type_traits"; "cstddef"] -> In x (seen t)).
  { intros N x X. destruct L as [-> | [-> | L]]; [|contradiction|].
    - apply S. cbn. cbn in X. decompose [or] X; subst; tauto.
    - apply (proj2 (K _ L)). cbn. cbn in X. decompose [or] X; subst; tauto. }
  assert (LB : g <> Libuavcan -> g <> BuildConfig -> In BuildConfig (compiled t)).
  { intros N1 N2. destruct L as [-> | [-> | L]]; try contradiction. apply (proj1 (K _ L)). now left. }
  split.
  - intros n U. destruct g; cbn [uses] in U.
    + destruct U.
    + right. destruct U as [<- | [<- | []]]; [exists "cstdint" | exists "type_traits"]; (split; [apply LS; [discriminate | cbn; tauto] | vm_compute; tauto]).
    + right. destruct (trace c) eqn:T; [|destruct U]. destruct U as [<- | []]. exists "cstdio". split; [|vm_compute; tauto].
      apply S. cbn. rewrite T. cbn. tauto.
    + right. destruct U as [<- | [<- | [<- | [<- | [<- | []]]]]].
      * exists "cstdlib". split; [apply S; cbn; tauto | vm_compute; tauto].
      * exists "type_traits". split; [apply LS; [discriminate | cbn; tauto] | vm_compute; tauto].
      * exists "type_traits". split; [apply LS; [discriminate | cbn; tauto] | vm_compute; tauto].
      * exists "type_traits". split; [apply LS; [discriminate | cbn; tauto] | vm_compute; tauto].
      * exists "limits". split; [apply LS; [discriminate | cbn; tauto] | vm_compute; tauto].
    + right. destruct U as [<- | [<- | [<- | [<- | [<- | []]]]]].
      * exists "cstdlib". split; [|vm_compute; tauto]. assert (M : In Math (compiled t)) by (apply D; cbn; tauto). apply (proj2 (K _ M)). cbn. tauto.
      * exists "cstdint". split; [apply LS; [discriminate | cbn; tauto] | vm_compute; tauto].
      * exists "cstdint". split; [apply LS; [discriminate | cbn; tauto] | vm_compute; tauto].
      * exists "type_traits". split; [apply LS; [discriminate | cbn; tauto] | vm_compute; tauto].
      * exists "limits". split; [apply LS; [discriminate | cbn; tauto] | vm_compute; tauto].
    + cbn [taken_for_granted]. destruct U as [<- | [<- | [<- | U]]]; [| now left; left | now left; right |].
      * right. exists "array". split; [apply S; cbn; tauto | vm_compute; tauto].
      * right. destruct U as [<- | [<- | [<- | [<- | [<- | [<- | [<- | []]]]]]]].
        -- exists "type_traits". split; [apply LS; [discriminate | cbn; tauto] | vm_compute; tauto].
        -- exists "cstddef". split; [apply LS; [discriminate | cbn; tauto] | vm_compute; tauto].
        -- exists "cstdint". split; [apply LS; [discriminate | cbn; tauto] | vm_compute; tauto].
        -- exists "cstdint". split; [apply LS; [discriminate | cbn; tauto] | vm_compute; tauto].
        -- exists "cstdint". split; [apply LS; [discriminate | cbn; tauto] | vm_compute; tauto].
        -- exists "cstdint". split; [apply LS; [discriminate | cbn; tauto] | vm_compute; tauto].
        -- exists "type_traits". split; [apply LS; [discriminate | cbn; tauto] | vm_compute; tauto].
    + right. destruct U as [<- | [<- | []]].
      * exists "cstddef". split; [apply LS; [discriminate | cbn; tauto] | vm_compute; tauto].
      * exists "cstdint". split; [apply LS; [discriminate | cbn; tauto] | vm_compute; tauto].
    + cbn [taken_for_granted]. apply in_app_or in U. destruct U as [U | U].
      2:{ destruct (exceptions c); [|destruct U]. destruct U as [<- | []]. left. right. split; reflexivity. }
      destruct U as [<- | [<- | [<- | [<- | [<- | [<- | [<- | [<- | [<- | [<- | [<- | []]]]]]]]]]]]; [| | | | | | | now left; left | | |]; right.
      * exists "type_traits". split; [apply LS; [discriminate | cbn; tauto] | vm_compute; tauto].
      * exists "atomic". split; [apply S; cbn; tauto | vm_compute; tauto].
      * exists "atomic". split; [apply S; cbn; tauto | vm_compute; tauto].
      * exists "atomic". split; [apply S; cbn; tauto | vm_compute; tauto].
      * exists "type_traits". split; [apply LS; [discriminate | cbn; tauto] | vm_compute; tauto].
      * exists "type_traits". split; [apply LS; [discriminate | cbn; tauto] | vm_compute; tauto].
      * exists "cstddef". split; [apply LS; [discriminate | cbn; tauto] | vm_compute; tauto].
      * exists "cstddef". split; [apply LS; [discriminate | cbn; tauto] | vm_compute; tauto].
      * exists "cstddef". split; [apply LS; [discriminate | cbn; tauto] | vm_compute; tauto].
      * exists "cstdint". split; [apply LS; [discriminate | cbn; tauto] | vm_compute; tauto].
  - intros d U. destruct g; cbn [uses_of] in U; try (destruct U; fail); repeat (destruct U as [<- | U]);
      try (apply LB; discriminate); try (apply D; cbn; tauto); try (destruct U; fail).
Qed.

Lemma granted_uses c h n : taken_for_granted c h n -> In n (uses c h).
Proof.
  destruct h; cbn [taken_for_granted]; try (intros []; fail).
  - intros [-> | ->]; cbn; tauto.
  - intros [-> | (E & ->)]; cbn [uses]; rewrite ?E; cbn; tauto.
Qed.

Lemma accepted_iff more c defined u : no_guards defined -> supported c ->
  (accepted more c defined u <->
   forall before h after n, u = before ++ Lib h :: after -> taken_for_granted c h n ->
     exists x, at_hand c (before ++ [Lib h]) x /\ declares more x n = true).
Proof.
  intros G V. split.
  - intros A b h a n -> T. replace (b ++ Lib h :: a) with ((b ++ [Lib h]) ++ a) in A by now rewrite <- app_assoc.
    apply compile_prefix in A. pose proof (compile_case more c defined (b ++ [Lib h]) G) as C.
    destruct (compile more c defined (b ++ [Lib h])) as [t|]; [|contradiction]. destruct C as ((_ & _ & C) & I & S).
    assert (H : In h (compiled t)) by (apply I; exists h; split; [apply in_or_app; right; now left | constructor]).
    destruct (C h H) as (_ & _ & _ & _ & U & _). destruct (U n (granted_uses c h n T)) as (x & X & D). exists x. split; [now apply S | exact D].
  - intros A. pose proof (compile_case more c defined u G) as C. unfold accepted.
    destruct (compile more c defined u) as [t|]; [discriminate|]. exfalso.
    destruct C as (b & h & a & s & -> & E & (g & R & N & [W | (t & T1 & T2 & T3 & T4 & T5)])).
    { apply version_error_iff in W. now destruct W as (_ & W). }
    destruct (uses_required c g t T2 T3 T4) as (U1 & U2). destruct T5 as [(n & X & Y) | (d & X & Y)]; [|now apply Y, U2].
    destruct (U1 n X) as [F | (x & Z & F)].
    + assert (g = Can \/ g = Memory) by (destruct g; cbn in F; tauto). pose proof (reached_from c h g R H) as ->.
      destruct (A b g a n eq_refl F) as (x & P & Q). rewrite Y in Q; [discriminate Q|].
      pose proof (compile_case more c defined b G) as C. rewrite E in C. destruct C as (_ & _ & S).
      assert (Cl : forall d e, reaches c d e -> In d (compiled t) -> In e (compiled t)).
      { intros d e P'. induction P' as [|d e f I P' IHP]; [auto|]. intros J. apply IHP. now apply (proj1 (T4 d J)). }
      destruct P as [P | (p & q & P & P1 & P2)]; apply in_app_or in P; destruct P as [P | [P | []]].
      * apply T1, S. now left.
      * discriminate P.
      * apply T1, S. right. now exists p, q.
      * injection P as <-. inversion P1 as [|k d e I J]; subst; [now apply T3|]. apply (proj2 (T4 q (Cl d q J (T2 d I)))), P2.
    + specialize (Y x Z). unfold declares in Y. apply orb_false_iff in Y. destruct Y as (Y & _). apply mem_In in F. congruence.
Qed.

(** Who is required to declare the names taken for granted. *)
Lemma required_by x n : In n (required x) ->
  ((n = "copy" \/ n = "equal" \/ n = "min") -> x = "algorithm") /\ (n = "bad_alloc" -> x = "new").
Proof.
  unfold required.
  repeat match goal with |- context [if String.eqb x ?y then _ else _] => destruct (String.eqb_spec x y) as [-> | ?] end; cbn; intros I;
    repeat (destruct I as [<- | I]; [split; intros E; first [reflexivity | discriminate E | repeat (destruct E as [E | E]; try discriminate E); discriminate E]|]);
    destruct I.
Qed.

Lemma not_included c h x : In (Std x) (includes c h) -> x <> "algorithm" /\ x <> "new".
Proof.
  destruct c as [v n e [] []], h; cbn; intros I; repeat (destruct I as [I | I]; [try discriminate I; injection I as <-; split; discriminate|]); destruct I.
Qed.

Lemma always_accepted_iff c defined u : no_guards defined -> supported c ->
  ((forall more, accepted more c defined u) <-> prepared c u).
Proof.
  intros G V. split.
  - intros A b h a x E M. specialize (A (fun _ _ => false)). rewrite (accepted_iff _ c defined u G V) in A.
    assert (K : exists n, taken_for_granted c h n /\ forall y, In n (required y) -> y = x).
    { destruct h; cbn in M; try contradiction.
      - subst x. exists "copy". split; [now left|]. intros y Y. apply (proj1 (required_by y _ Y)). tauto.
      - destruct M as [-> | (X & ->)].
        + exists "min". split; [now left|]. intros y Y. apply (proj1 (required_by y _ Y)). tauto.
        + exists "bad_alloc". split; [now right|]. intros y Y. now apply (proj2 (required_by y _ Y)). }
    destruct K as (n & T & K). destruct (A b h a n E T) as (y & H & D). unfold declares in D. rewrite orb_false_r in D.
    apply mem_In, K in D. subst y. destruct H as [H | (g & k & _ & _ & H)].
    + apply in_app_or in H. destruct H as [H | [H | []]]; [exact H | discriminate H].
    + destruct (not_included c k x H) as (N1 & N2). destruct h; cbn in M; try contradiction. destruct M as [M | (_ & M)]; contradiction.
  - intros P more. apply (accepted_iff more c defined u G V). intros b h a n E T.
    assert (K : exists x, missing c h x /\ In n (required x)).
    { destruct h; cbn in T; try contradiction.
      - exists "algorithm". split; [reflexivity|]. destruct T as [-> | ->]; vm_compute; tauto.
      - destruct T as [-> | (X & ->)]; [exists "algorithm" | exists "new"]; (split; [cbn; tauto | vm_compute; tauto]). }
    destruct K as (x & M & I). exists x. split; [left; apply in_or_app; left; now apply (P b h a) |].
    unfold declares. apply mem_In in I. now rewrite I.
Qed.
