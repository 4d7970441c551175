(** Proofs about which tests are run. *)
From Coq Require Import Bool Arith List String Ascii.
From Verif Require Import RunTestsModel RunTestsSpec.
Import ListNotations.
Open Scope string_scope.
Open Scope list_scope.

Lemma after_prefix_spec p : forall s r, after_prefix p s = Some r <-> s = (p ++ r)%string.
Proof.
  induction p as [|a p IH]; intros s r; cbn.
  - split; intros E; [now injection E as -> | now subst].
  - destruct s as [|b s]; [split; discriminate|]. destruct (Ascii.eqb_spec a b) as [<- | N].
    + rewrite IH. split; [intros -> | intros E; injection E]; auto.
    + split; [discriminate|]. intros E. injection E as -> _. contradiction.
Qed.

Lemma ends_with_spec t : forall s, ends_with t s = true <-> exists x, s = (x ++ t)%string.
Proof.
  induction s as [|a s IH]; cbn [ends_with].
  - rewrite orb_false_r, String.eqb_eq. split.
    + intros <-. now exists ""%string.
    + intros (x & E). destruct x; [exact E | discriminate].
  - rewrite orb_true_iff, String.eqb_eq, IH. split.
    + intros [E | (x & ->)]; [exists ""%string; exact E | now exists (String a x)].
    + intros (x & E). destruct x as [|b x]; [now left|]. injection E as -> ->. right. now exists x.
Qed.

Lemma is_test_spec s : is_test s = true <-> test_name s.
Proof.
  unfold is_test, test_name. destruct (after_prefix "test_" s) as [r|] eqn:E.
  - apply after_prefix_spec in E. subst. rewrite ends_with_spec. split; intros (x & H); exists x; [now rewrite H | now injection H].
  - split; [discriminate|]. intros (x & ->). assert (K : after_prefix "test_" ("test_" ++ x ++ ".cpp") = Some (x ++ ".cpp")%string)
      by now apply after_prefix_spec. congruence.
Qed.

Lemma mem_In x l : mem x l = true <-> In x l.
Proof.
  unfold mem. rewrite existsb_exists. split; [intros (y & I & E); apply String.eqb_eq in E; now subst | intros I; exists x].
  split; [exact I | apply String.eqb_refl].
Qed.

Lemma distinct_NoDup l : distinct l = true <-> NoDup l.
Proof.
  induction l as [|x l IH]; cbn; [split; [constructor | reflexivity]|].
  rewrite andb_true_iff, negb_true_iff, IH, NoDup_cons_iff. rewrite <- mem_In, not_true_iff_false. tauto.
Qed.

Lemma name_we_no_dot s : ~ exists x y, name_we s = (x ++ "." ++ y)%string.
Proof.
  induction s as [|a s IH]; cbn; intros (x & y & E).
  - destruct x; discriminate.
  - destruct (Ascii.eqb_spec a ".") as [-> | N]; [destruct x; discriminate|].
    destruct x as [|b x]; [injection E as -> _; contradiction|]. injection E as -> E. apply IH. now exists x, y.
Qed.

Lemma name_we_head s : s = name_we s \/ exists x, s = (name_we s ++ "." ++ x)%string.
Proof.
  induction s as [|a s IH]; cbn; [now left|]. destruct (Ascii.eqb_spec a ".") as [-> | N].
  - right. now exists s.
  - destruct IH as [IH | (x & IH)]; [left; now f_equal | right; exists x; cbn; now f_equal].
Qed.

Lemma stem_name_we s t : stem_of s t <-> t = name_we s.
Proof.
  split.
  - intros (H & N). revert s H. induction t as [|a t IH]; intros s [E | (x & E)].
    + now subst.
    + now subst.
    + subst. cbn. destruct (Ascii.eqb_spec a ".") as [-> | D].
      * exfalso. apply N. exists ""%string, t. reflexivity.
      * f_equal. apply IH; [|now left]. intros (u & v & ->). apply N. now exists (String a u), v.
    + subst. cbn. destruct (Ascii.eqb_spec a ".") as [-> | D].
      * exfalso. apply N. exists ""%string, t. reflexivity.
      * f_equal. apply IH; [|right; now exists x]. intros (u & v & ->). apply N. now exists (String a u), v.
  - intros ->. split; [apply name_we_head | apply name_we_no_dot].
Qed.

(** A NoDup list of names stays so under a function exactly if the function tells them apart. *)
Lemma NoDup_map_iff (f : string -> string) l :
  NoDup l -> (NoDup (map f l) <-> forall x y, In x l -> In y l -> f x = f y -> x = y).
Proof.
  induction l as [|a l IH]; intros D; [split; [intros _ x y [] | constructor]|].
  apply NoDup_cons_iff in D. destruct D as (N & D). cbn [map]. rewrite NoDup_cons_iff, (IH D). split.
  - intros (M & I) x y [<- | X] [<- | Y] E; auto.
    + exfalso. apply M. rewrite E. now apply in_map.
    + exfalso. apply M. rewrite <- E. now apply in_map.
  - intros I. split.
    + intros M. apply in_map_iff in M. destruct M as (x & E & X). apply N. rewrite (I a x (or_introl eq_refl) (or_intror X) (eq_sym E)). exact X.
    + intros x y X Y. apply I; now right.
Qed.

Lemma NoDup_filter_names (g : string -> bool) l : NoDup l -> NoDup (filter g l).
Proof. apply NoDup_filter. Qed.

Lemma NoDup_app_iff (a b : list string) : NoDup (a ++ b) <-> NoDup a /\ NoDup b /\ forall x, In x a -> ~ In x b.
Proof.
  induction a as [|x a IH]; cbn [app].
  - split; [intros D; repeat split; [constructor | exact D | intros ? []] | tauto].
  - rewrite !NoDup_cons_iff, IH, in_app_iff. split.
    + intros (N & A & B & C). repeat split; auto. intros y [<- | Y]; [tauto | now apply C].
    + intros ((N & A) & B & C). repeat split; auto.
      * intros [X | X]; [exact (N X) | exact (C x (or_introl eq_refl) X)].
      * intros y Y. apply C. now right.
Qed.

(** The files that a directory has. *)
Lemma find_unit l : NoDup (map u_name l) -> forall u, In u l -> find (fun v => String.eqb (u_name v) (u_name u)) l = Some u.
Proof.
  induction l as [|v l IH]; intros D u I; [destruct I|]. cbn [map] in D. apply NoDup_cons_iff in D. destruct D as (N & D). cbn [find].
  destruct (String.eqb_spec (u_name v) (u_name u)) as [E | E].
  - destruct I as [-> | I]; [reflexivity|]. exfalso. apply N. rewrite E. now apply in_map.
  - destruct I as [-> | I]; [contradiction | now apply IH].
Qed.

Lemma find_compile l : NoDup (map c_name l) -> forall u, In u l -> find (fun v => String.eqb (c_name v) (c_name u)) l = Some u.
Proof.
  induction l as [|v l IH]; intros D u I; [destruct I|]. cbn [map] in D. apply NoDup_cons_iff in D. destruct D as (N & D). cbn [find].
  destruct (String.eqb_spec (c_name v) (c_name u)) as [E | E].
  - destruct I as [-> | I]; [reflexivity|]. exfalso. apply N. rewrite E. now apply in_map.
  - destruct I as [-> | I]; [contradiction | now apply IH].
Qed.

Lemma find_unit_iff p x u : a_directory p -> (unit_of p x = Some u <-> In u (native p) /\ u_name u = x).
Proof.
  intros (D & _). unfold unit_of. split.
  - intros E. apply find_some in E. destruct E as (I & E). apply String.eqb_eq in E. tauto.
  - intros (I & <-). now apply find_unit.
Qed.

Lemma find_compile_iff p x u : a_directory p -> (compile_of p x = Some u <-> In u (compile p) /\ c_name u = x).
Proof.
  intros (_ & D). unfold compile_of. split.
  - intros E. apply find_some in E. destruct E as (I & E). apply String.eqb_eq in E. tauto.
  - intros (I & <-). now apply find_compile.
Qed.

Lemma make_test_all_iff p n c : a_directory p -> listed p = Some (n, c) ->
  (make_test_all p = true <-> forall x, In x n -> exists u, In u (native p) /\ u_name u = x /\ u_builds u = true /\ u_passes u = true).
Proof.
  intros D L. unfold make_test_all. rewrite L, forallb_forall. split; intros A x X; specialize (A x X).
  - destruct (unit_of p x) as [u|] eqn:E; [|discriminate]. apply find_unit_iff in E; [|exact D]. apply andb_true_iff in A. exists u. tauto.
  - destruct A as (u & I & N & B & P). rewrite (proj2 (find_unit_iff p x u D) (conj I N)). now rewrite B, P.
Qed.

Lemma make_all_iff p n c : a_directory p -> listed p = Some (n, c) ->
  (make_all p = true <-> forall x, In x n -> exists u, In u (native p) /\ u_name u = x /\ u_builds u = true).
Proof.
  intros D L. unfold make_all. rewrite L, forallb_forall. split; intros A x X; specialize (A x X).
  - destruct (unit_of p x) as [u|] eqn:E; [|discriminate]. apply find_unit_iff in E; [|exact D]. exists u. tauto.
  - destruct A as (u & I & N & B). now rewrite (proj2 (find_unit_iff p x u D) (conj I N)).
Qed.

Lemma make_test_iff p n c : a_directory p -> listed p = Some (n, c) ->
  (make_test p = true <-> forall t, In t (compile p) -> In (c_name t) c -> c_builds t = false).
Proof.
  intros D L. unfold make_test. rewrite L, forallb_forall. split.
  - intros A t I X. specialize (A _ X). rewrite (proj2 (find_compile_iff p _ t D) (conj I eq_refl)) in A. now apply negb_true_iff in A.
  - intros A x X. destruct (compile_of p x) as [t|] eqn:E; [|reflexivity]. apply find_compile_iff in E; [|exact D].
    destruct E as (I & <-). now rewrite (A t I X).
Qed.

Lemma configure_files p : native (fst (configure p)) = native p /\ compile (fst (configure p)) = compile p.
Proof. unfold configure. destruct (distinct _ && distinct _); split; reflexivity. Qed.

Lemma configure_lists p : snd (configure p) = true ->
  listed (fst (configure p)) = Some (filter is_test (map u_name (native p)), filter is_test (map c_name (compile p))).
Proof. unfold configure. destruct (distinct _ && distinct _); [reflexivity | discriminate]. Qed.

Lemma configure_fails p : snd (configure p) = false -> fst (configure p) = p.
Proof. unfold configure. destruct (distinct _ && distinct _); [discriminate | reflexivity]. Qed.

Lemma listed_native p x : In x (filter is_test (map u_name (native p))) <-> test_name x /\ exists u, In u (native p) /\ u_name u = x.
Proof.
  rewrite filter_In, in_map_iff, is_test_spec. split.
  - intros ((u & E & I) & T). split; [exact T | exists u; tauto].
  - intros (T & u & I & E). split; [exists u; tauto | exact T].
Qed.

Lemma listed_compile p x : In x (filter is_test (map c_name (compile p))) <-> test_name x /\ exists u, In u (compile p) /\ c_name u = x.
Proof.
  rewrite filter_In, in_map_iff, is_test_spec. split.
  - intros ((u & E & I) & T). split; [exact T | exists u; tauto].
  - intros (T & u & I & E). split; [exists u; tauto | exact T].
Qed.

(** The targets that run tests. *)
Lemma length_append x y : String.length (x ++ y) = String.length x + String.length y.
Proof. induction x as [|a x IH]; cbn; [reflexivity | now rewrite IH]. Qed.

Lemma app_inj_r t : forall x y, (x ++ t)%string = (y ++ t)%string -> x = y.
Proof.
  intros x y E. assert (L : String.length x = String.length y).
  { apply (f_equal String.length) in E. rewrite !length_append in E. apply (Nat.add_cancel_r _ _ (String.length t)). exact E. }
  revert y E L. induction x as [|a x IH]; intros [|b y] E L; try discriminate; [reflexivity|].
  cbn in E. injection E as -> E. f_equal. apply IH; [exact E | now injection L].
Qed.

Lemma runs_distinct n : NoDup (map name_we n) ->
  (distinct (map run_target (map name_we n) ++ map run_with_lcov_target (map name_we n)) = true <->
   forall x y, In x n -> In y n -> name_we x <> (name_we y ++ "_with_lcov")%string).
Proof.
  intros D. rewrite distinct_NoDup, NoDup_app_iff.
  rewrite (NoDup_map_iff run_target _ D), (NoDup_map_iff run_with_lcov_target _ D). split.
  - intros (_ & _ & C) x y X Y E. apply (C (run_target (name_we x))).
    + apply in_map, in_map, X.
    + unfold run_target. rewrite E. apply (in_map run_with_lcov_target), in_map, Y.
  - intros C. split; [|split].
    + intros x y _ _ E. injection E. auto.
    + intros x y _ _ E. unfold run_with_lcov_target in E. cbn in E. injection E as E. now apply app_inj_r in E.
    + intros z Z W. apply in_map_iff in Z, W. destruct Z as (x & <- & X), W as (y & E & Y).
      apply in_map_iff in X, Y. destruct X as (x0 & <- & X), Y as (y0 & <- & Y).
      apply (C x0 y0 X Y). unfold run_target, run_with_lcov_target in E. cbn in E. injection E as E. now symmetry.
Qed.

(** When a configuration succeeds. *)
Lemma configure_iff p : a_directory p ->
  (snd (configure p) = true <->
   (forall d x y t, test_of p d x -> test_of p d y -> stem_of x t -> stem_of y t -> x = y) /\
   (forall x y t, test_of p Native x -> test_of p Compile y -> stem_of x t -> ~ stem_of y t) /\
   (forall d x, test_of p d x -> ~ stem_of x "test_all") /\
   (forall x y t, test_of p Native x -> test_of p Native y -> stem_of y t -> ~ stem_of x (t ++ "_with_lcov"))).
Proof.
  intros (D1 & D2). unfold configure.
  set (n := filter is_test (map u_name (native p))). set (c := filter is_test (map c_name (compile p))).
  assert (Tn : forall x, test_of p Native x <-> In x n) by (intros x; unfold n; rewrite listed_native; reflexivity).
  assert (Tc : forall x, test_of p Compile x <-> In x c) by (intros x; unfold c; rewrite listed_compile; reflexivity).
  assert (Q : forall b : bool, snd (if b then (Project (native p) (compile p) (Some (n, c)), true) else (p, false)) = true <-> b = true)
    by (intros []; cbn; tauto).
  rewrite Q, andb_true_iff. clear Q.
  assert (A : distinct (map name_we n ++ ["test_all"] ++ map name_we c) = true <->
    ((forall x y, In x n -> In y n -> name_we x = name_we y -> x = y) /\
     (NoDup ["test_all"] /\ (forall x y, In x c -> In y c -> name_we x = name_we y -> x = y) /\
      (forall x, In x ["test_all"] -> ~ In x (map name_we c))) /\
     (forall x, In x (map name_we n) -> ~ In x (["test_all"] ++ map name_we c)))).
  { rewrite distinct_NoDup, !NoDup_app_iff.
    rewrite (NoDup_map_iff name_we n) by (apply NoDup_filter; exact D1).
    rewrite (NoDup_map_iff name_we c) by (apply NoDup_filter; exact D2). reflexivity. }
  split.
  - intros (P & R). pose proof (proj1 (distinct_NoDup _) P) as ND. apply NoDup_app_iff in ND. destruct ND as (ND & _).
    apply A in P. pose proof (proj1 (runs_distinct n ND) R) as R0. clear R. rename R0 into R. destruct P as (I1 & (_ & I2 & C2) & C1). split; [|split; [|split]].
    + intros d x y t X Y Sx Sy. apply stem_name_we in Sx, Sy. subst t. destruct d.
      * apply I1; [now apply Tn | now apply Tn | exact Sy].
      * apply I2; [now apply Tc | now apply Tc | exact Sy].
    + intros x y t X Y Sx Sy. apply stem_name_we in Sx, Sy. subst t. apply (C1 (name_we x)).
      * apply in_map. now apply Tn.
      * right. rewrite Sy. apply in_map. now apply Tc.
    + intros d x X Sx. apply stem_name_we in Sx. destruct d.
      * apply (C1 (name_we x)); [apply in_map; now apply Tn | left; exact Sx].
      * apply (C2 "test_all"); [now left | rewrite Sx; apply in_map; now apply Tc].
    + intros x y t X Y Sy Sx. apply stem_name_we in Sx, Sy. subst t. apply (R x y); [now apply Tn | now apply Tn | now symmetry].
  - intros (I & C & T & W).
    assert (P : distinct (map name_we n ++ ["test_all"] ++ map name_we c) = true).
    { apply A. split; [|split; [split; [|split] |]].
      + intros x y X Y E. apply (I Native x y (name_we x)); [now apply Tn | now apply Tn | now apply stem_name_we | now apply stem_name_we].
      + constructor; [intros [] | constructor].
      + intros x y X Y E. apply (I Compile x y (name_we x)); [now apply Tc | now apply Tc | now apply stem_name_we | now apply stem_name_we].
      + intros x [<- | []] M. apply in_map_iff in M. destruct M as (y & E & Y). apply (T Compile y); [now apply Tc | now apply stem_name_we].
      + intros x X. apply in_map_iff in X. destruct X as (y & <- & Y). intros [E | Z].
        * apply (T Native y); [now apply Tn | now apply stem_name_we].
        * apply in_map_iff in Z. destruct Z as (z & E & Z). apply (C y z (name_we y)); [now apply Tn | now apply Tc | now apply stem_name_we |].
          apply stem_name_we. now symmetry. }
    split; [exact P|]. pose proof (proj1 (distinct_NoDup _) P) as ND. apply NoDup_app_iff in ND. destruct ND as (ND & _).
    apply (proj2 (runs_distinct n ND)). intros x y X Y E.
    apply (W x y (name_we y)); [now apply Tn | now apply Tn | now apply stem_name_we | apply stem_name_we; now symmetry].
Qed.
