(** Proofs about build options and CMake functions. *)
From Coq Require Import ZArith Bool List String Ascii Decimal DecimalString DecimalNat Lia.
From Verif Require Import CMakeModel CMakeSpec.
Import ListNotations.
Open Scope string_scope.
Open Scope list_scope.

(** ** Optional arguments *)

Lemma stoi_uint : forall d acc rest, (forall c s, rest = String c s -> digit c = None) ->
  stoi acc (NilEmpty.string_of_uint d ++ rest)%string = Nat.of_uint_acc d acc.
Proof.
  intros d. induction d; intros acc rest H; cbn [NilEmpty.string_of_uint String.append stoi Nat.of_uint_acc];
    [destruct rest as [| c s]; [reflexivity |]; cbn [stoi]; now rewrite (H c s eq_refl) | ..];
    match goal with |- context [digit ?c] => let v := eval vm_compute in (digit c) in change (digit c) with v end; cbv iota beta;
    rewrite IHd by assumption; rewrite (Nat.tail_mul_spec 10 acc); f_equal; lia.
Qed.

Lemma stoi_argc : forall args, stoi 0 (argc args ++ "-1")%string = List.length args.
Proof.
  intros args. unfold argc. rewrite stoi_uint.
  - change (Nat.of_uint_acc ?d 0) with (Nat.of_uint d). apply Unsigned.of_to.
  - intros c s E. inversion E; subst. reflexivity.
Qed.

Lemma visited_all : forall first args, visited first args =
  Some (if (first <? List.length args)%nat then seq first (List.length args - first + 1) else []).
Proof.
  intros first args. unfold visited. rewrite stoi_argc. destruct (Nat.ltb_spec first (List.length args)) as [L | L]; [| reflexivity].
  unfold range. destruct (Nat.ltb_spec (List.length args) first) as [C | C]; [lia | reflexivity].
Qed.

Lemma argv_seq : forall (outer : nat -> option string) before args, 
  map (argv outer (before ++ args)) (seq (List.length before) (List.length args + 1)) =
  map Some args ++ [outer (List.length before + List.length args)%nat].
Proof.
  intros outer before args. revert before. induction args as [| a args IH]; intros before; cbn [List.length Nat.add seq map List.app].
  - unfold argv. rewrite app_nil_r, (proj2 (nth_error_None before _)) by lia. now rewrite Nat.add_0_r.
  - f_equal.
    + unfold argv. rewrite nth_error_app2 by lia. now rewrite Nat.sub_diag.
    + specialize (IH (before ++ [a])). rewrite <- app_assoc, app_length in IH. cbn [List.length List.app] in IH.
      rewrite Nat.add_1_r in IH. rewrite IH. do 3 f_equal. lia.
Qed.

Lemma flat_unquoted : forall l, flat_map unquoted (map Some l) = List.filter (fun s => negb (String.eqb s "")) l.
Proof.
  induction l as [| s l IH]; [reflexivity |]. cbn [map flat_map List.filter unquoted].
  destruct (String.eqb s ""); cbn [negb List.app]; now rewrite IH.
Qed.

Lemma flat_map_map : forall {A B C} (f : A -> B) (g : B -> list C) l, flat_map (fun x => g (f x)) l = flat_map g (map f l).
Proof. induction l as [| x l IH]; [reflexivity |]. cbn [flat_map map]. now rewrite IH. Qed.

Lemma optional_files_eq : forall outer a b files,
  optional_files outer (a :: b :: files) =
  Some (match files with
        | [] => []
        | _ => List.filter (fun s => negb (String.eqb s "")) files ++ unquoted (outer (2 + List.length files)%nat)
        end).
Proof.
  intros outer a b files. unfold optional_files. rewrite visited_all. cbn [List.length].
  destruct files as [| f files]; [reflexivity |].
  destruct (Nat.ltb_spec 2 (Datatypes.S (Datatypes.S (List.length (f :: files))))) as [L | L]; [| cbn [List.length] in L; lia].
  f_equal. rewrite (flat_map_map (argv outer (a :: b :: f :: files)) unquoted).
  replace (Datatypes.S (Datatypes.S (List.length (f :: files))) - 2 + 1)%nat with (List.length (f :: files) + 1)%nat by lia.
  change (a :: b :: f :: files) with ([a; b] ++ f :: files). change (seq 2) with (seq (List.length [a; b])).
  rewrite (argv_seq outer [a; b] (f :: files)).
  rewrite flat_map_app, flat_unquoted. cbn [flat_map]. now rewrite app_nil_r.
Qed.

Lemma filter_all : forall (l : list string), ~ In "" l -> List.filter (fun s => negb (String.eqb s "")) l = l.
Proof.
  induction l as [| s l IH]; intros N; [reflexivity |]. cbn [List.filter].
  destruct (String.eqb_spec s "") as [-> | E]; cbn [negb]; [exfalso; apply N; now left |].
  f_equal. apply IH. intros C. apply N. now right.
Qed.

Lemma lookup_args_eq : forall outer a b c d e dirs,
  lookup_args outer (a :: b :: c :: d :: e :: dirs) =
  Some (match dirs with
        | _ :: (_ :: _) as rest =>
            map (fun s => " -I " ++ s)%string (tl dirs ++ [match outer (5 + List.length dirs)%nat with Some s => s | None => "" end])
        | _ => []
        end).
Proof.
  intros outer a b c d e dirs. unfold lookup_args. rewrite visited_all. cbn [List.length].
  destruct dirs as [| d0 [| d1 dirs]]; [reflexivity | reflexivity |].
  destruct (Nat.ltb_spec 6 (5 + List.length (d0 :: d1 :: dirs))) as [L | L]; [| cbn [List.length] in L; lia].
  change (6 <? Datatypes.S (Datatypes.S (Datatypes.S (Datatypes.S (Datatypes.S (List.length (d0 :: d1 :: dirs)))))))%nat
    with (6 <? 5 + List.length (d0 :: d1 :: dirs))%nat.
  rewrite (proj2 (Nat.ltb_lt _ _) L).
  f_equal. cbn [tl].
  pose proof (argv_seq outer [a; b; c; d; e; d0] (d1 :: dirs)) as Q.
  rewrite <- (map_map (argv outer (a :: b :: c :: d :: e :: d0 :: d1 :: dirs)) (fun o => " -I " ++ match o with Some s => s | None => "" end)%string).
  replace (Datatypes.S (Datatypes.S (Datatypes.S (Datatypes.S (Datatypes.S (List.length (d0 :: d1 :: dirs)))))) - 6 + 1)%nat
    with (List.length (d1 :: dirs) + 1)%nat by (cbn [List.length]; lia).
  cbn [List.length] in Q |- *. change (a :: b :: c :: d :: e :: d0 :: d1 :: dirs) with ([a; b; c; d; e; d0] ++ d1 :: dirs). rewrite Q.
  rewrite !map_app, map_map. reflexivity.
Qed.

(** ** Build options *)

Lemma define_gives : forall name v w, In ("-D" ++ name ++ "=" ++ w)%string (define name v) <-> v = Some w.
Proof.
  intros name v w. unfold define. destruct v as [x |]; cbn [In].
  - split; [intros [E | []] | intros E; inversion E; now left].
    f_equal. assert (forall p a b : string, (p ++ a = p ++ b)%string -> a = b) as J.
    { induction p as [| c p IH]; intros a b H; [exact H |]. cbn [String.append] in H. inversion H. now apply IH. }
    apply J in E. apply J in E. now inversion E.
  - split; [intros [] | discriminate].
Qed.

Lemma ordinary_not : forall flags s, ordinary flags -> prefix "-DLIBUAVCAN_" s = true -> ~ In s flags.
Proof. intros flags s H P I. rewrite (H s I) in P. discriminate P. Qed.

Lemma gives_exceptions : forall o cxx flags v, ordinary flags ->
  (gives (apply_flag_set o cxx flags) "LIBUAVCAN_ENABLE_EXCEPTIONS" v <-> exceptions_set o cxx = Some v).
Proof.
  intros o cxx flags v H. unfold gives, apply_flag_set. rewrite !in_app_iff, define_gives. split; [| tauto].
  intros [I | [I | [I | I]]].
  - exfalso. eapply ordinary_not; [eassumption | | exact I]. reflexivity.
  - assumption.
  - unfold define in I. destruct (assert_set o cxx); cbn in I; [destruct I as [I | []]; discriminate I | destruct I].
  - unfold define in I. destruct (trace_set o); cbn in I; [destruct I as [I | []]; discriminate I | destruct I].
Qed.

Lemma gives_assert : forall o cxx flags v, ordinary flags ->
  (gives (apply_flag_set o cxx flags) "LIBUAVCAN_INTROSPECTION_ENABLE_ASSERT" v <-> assert_set o cxx = Some v).
Proof.
  intros o cxx flags v H. unfold gives, apply_flag_set. rewrite !in_app_iff, define_gives. split; [| tauto].
  intros [I | [I | [I | I]]].
  - exfalso. eapply ordinary_not; [eassumption | | exact I]. reflexivity.
  - unfold define in I. destruct (exceptions_set o cxx); cbn in I; [destruct I as [I | []]; discriminate I | destruct I].
  - assumption.
  - unfold define in I. destruct (trace_set o); cbn in I; [destruct I as [I | []]; discriminate I | destruct I].
Qed.

Lemma gives_trace : forall o cxx flags v, ordinary flags ->
  (gives (apply_flag_set o cxx flags) "LIBUAVCAN_INTROSPECTION_TRACE_ENABLE" v <-> trace_set o = Some v).
Proof.
  intros o cxx flags v H. unfold gives, apply_flag_set. rewrite !in_app_iff, define_gives. split; [| tauto].
  intros [I | [I | [I | I]]].
  - exfalso. eapply ordinary_not; [eassumption | | exact I]. reflexivity.
  - unfold define in I. destruct (exceptions_set o cxx); cbn in I; [destruct I as [I | []]; discriminate I | destruct I].
  - unfold define in I. destruct (assert_set o cxx); cbn in I; [destruct I as [I | []]; discriminate I | destruct I].
  - assumption.
Qed.

Lemma existsb_in : forall s l, existsb (String.eqb s) l = true <-> In s l.
Proof.
  intros s l. rewrite existsb_exists. split.
  - intros (x & I & E). apply String.eqb_eq in E. now subst.
  - intros I. exists s. split; [assumption | apply String.eqb_refl].
Qed.

Lemma compiler_exceptions_off : forall flags, compiler_exceptions flags = false <-> exceptions_off flags.
Proof.
  intros flags. unfold compiler_exceptions, exceptions_off. induction flags as [| f flags IH] using rev_ind.
  - split; [discriminate |]. intros ([| x a] & b & E & _); discriminate E.
  - rewrite fold_left_app. cbn [fold_left]. destruct (String.eqb_spec f "-fexceptions") as [-> | N1].
    + split; [discriminate |]. intros (a & b & E & NI). exfalso. destruct b as [| y b _] using rev_ind.
      * apply app_inj_tail in E. destruct E as [_ E]. discriminate E.
      * change (a ++ "-fno-exceptions" :: b ++ [y]) with (a ++ ("-fno-exceptions" :: b) ++ [y]) in E. rewrite app_assoc in E.
        apply app_inj_tail in E. destruct E as [_ <-]. apply NI. apply in_app_iff. right. now left.
    + destruct (String.eqb_spec f "-fno-exceptions") as [-> | N2].
      * split; [intros _; exists flags, []; split; [reflexivity | intros []] | reflexivity].
      * rewrite IH. split.
        -- intros (a & b & -> & NI). exists a, (b ++ [f]). split; [now rewrite <- app_assoc |].
           intros I. apply in_app_iff in I. destruct I as [I | [I | []]]; [contradiction | congruence].
        -- intros (a & b & E & NI). destruct b as [| y b _] using rev_ind.
           ++ apply app_inj_tail in E. destruct E as [_ E]. congruence.
           ++ change (a ++ "-fno-exceptions" :: b ++ [y]) with (a ++ ("-fno-exceptions" :: b) ++ [y]) in E. rewrite app_assoc in E.
              apply app_inj_tail in E. destruct E as [-> _]. exists a, b. split; [reflexivity |].
              intros I. apply NI. apply in_app_iff. now left.
Qed.

Lemma all_digits_number : forall v, all_digits v = number v.
Proof.
  intros v. unfold all_digits, number, only. f_equal. induction (list_ascii_of_string v) as [| c l IH]; [reflexivity |].
  cbn [forallb]. rewrite IH. f_equal. destruct c as [[] [] [] [] [] [] [] []]; reflexivity.
Qed.
Lemma is_word_word : forall v, is_word v = word v.
Proof.
  intros v. unfold is_word, word, only. f_equal. induction (list_ascii_of_string v) as [| c l IH]; [reflexivity |].
  cbn [forallb]. rewrite IH. f_equal. destruct c as [[] [] [] [] [] [] [] []]; reflexivity.
Qed.
