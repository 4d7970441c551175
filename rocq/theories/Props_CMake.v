(** C157-C158: functions and options of the build. *)
From Coq Require Import ZArith Bool List String Ascii Lia.
From Verif Require Import CMakeModel CMakeSpec CMakeProofs.
Import ListNotations.
Open Scope string_scope.
Open Scope list_scope.

(** C157. Full statement: the function that generates headers names each of the lookup directories it is given,
      list_outputs outer (a :: output :: c :: root :: e :: dirs) = Some command -> In dir dirs -> names_lookup dir command,
    and the example is made of exactly the files given. The first fails for every directory: *)
Theorem C157_lookup_refuted : forall outer a output c root e dirs command dir, output <> "-I" ->
  list_outputs outer (a :: output :: c :: root :: e :: dirs) = Some command -> ~ names_lookup dir command.
Proof.
  intros outer a output c root e dirs command dir N E (x & y & X). unfold list_outputs in E. rewrite lookup_args_eq in E.
  match type of E with Some (_ ++ ?ds ++ _) = _ => set (words := ds) in *; assert (forall w, In w words -> exists s, w = (" -I " ++ s)%string) as W end.
  { intros w Hw. unfold words in Hw. destruct dirs as [| d0 [| d1 dirs]]; [destruct Hw | destruct Hw |]. apply in_map_iff in Hw. destruct Hw as (s & <- & _). now exists s. }
  inversion E as [E']. clear E. subst command. clearbody words.
  destruct x as [| x0 x]; cbn [List.app] in E'; [discriminate E' |].
  destruct x as [| x1 x]; cbn [List.app] in E'; [discriminate E' |].
  destruct x as [| x2 x]; cbn [List.app] in E'; [discriminate E' |].
  destruct x as [| x3 x]; cbn [List.app] in E'; [discriminate E' |].
  destruct x as [| x4 x]; cbn [List.app] in E'; [inversion E'; congruence |].
  injection E' as _ _ _ _ _ R.
  revert x R. induction words as [| w words IH]; intros [| x5 x] R; cbn [List.app] in R.
  - inversion R.
  - injection R as _ R'. destruct x; discriminate R'.
  - destruct (W w (or_introl eq_refl)) as [s ->]. inversion R.
  - injection R as _ R'. apply (IH (fun v Hv => W v (or_intror Hv)) x R').
Qed.
Print Assumptions C157_lookup_refuted.

(** Exactly: of two or more directories the first is left out, each of the others and one thing more, which is a variable of the
    caller or nothing, is one word that begins with a blank; a single one is left out. *)
Theorem C157_lookup_exact_partial : forall outer a output c root e dirs,
  list_outputs outer (a :: output :: c :: root :: e :: dirs) =
  Some (["--list-outputs"; "--output-extension"; ".hpp"; "-O"; output] ++
        (if (List.length dirs <? 2)%nat then []
         else map (fun s => " -I " ++ s)%string (tl dirs ++ [match outer (5 + List.length dirs)%nat with Some s => s | None => "" end])) ++
        [root]).
Proof. intros. unfold list_outputs. rewrite lookup_args_eq. destruct dirs as [| d0 [| d1 dirs]]; reflexivity. Qed.
Print Assumptions C157_lookup_exact_partial.

(** The loop over the files goes one too far, and finds a variable of the caller if there is one. *)
Theorem C157_files_refuted : exists outer name dir files ex,
  define_native_example outer None (name :: dir :: files) = Some ex /\ ex_sources ex <> files.
Proof.
  exists (fun n => if Nat.eqb n 3 then Some "callers.cpp" else None), "example", "out", ["main.cpp"]. eexists. split; [vm_compute; reflexivity |].
  discriminate.
Qed.
Print Assumptions C157_files_refuted.
Theorem C157_files_exact_partial : forall outer test_name name dir files, files <> [] -> ~ In "" files ->
  exists ex, define_native_example outer test_name (name :: dir :: files) = Some ex /\
    ex_target ex = name /\
    ex_sources ex = files ++ match outer (2 + List.length files)%nat with None | Some "" => [] | Some s => [s] end /\
    optional_files outer (name :: dir :: files) = Some (ex_sources ex).
Proof.
  intros outer test_name name dir files NE N. unfold define_native_example. rewrite optional_files_eq.
  destruct files as [| f files]; [congruence |]. rewrite filter_all by assumption.
  assert (forall v, unquoted v = match v with None | Some "" => [] | Some s => [s] end) as U.
  { intros [[| x s] |]; reflexivity. }
  rewrite U. eexists. repeat split.
Qed.
Print Assumptions C157_files_exact_partial.
(** So a call that is not within another function takes exactly the files given. *)
Theorem C157_files_top_level : forall test_name name dir files, ~ In "" files ->
  exists ex, define_native_example (fun _ => None) test_name (name :: dir :: files) = Some ex /\ ex_sources ex = files.
Proof.
  intros test_name name dir files N. destruct files as [| f files]; [eexists; split; reflexivity |].
  destruct (C157_files_exact_partial (fun _ => None) test_name name dir (f :: files)) as (ex & E & _ & S & _); [discriminate | assumption |].
  exists ex. split; [assumption |]. rewrite S. apply app_nil_r.
Qed.
Print Assumptions C157_files_top_level.
(** The generated headers are linked to the example only if the caller has a variable ARG_TEST_NAME with the example's name. *)
Theorem C157_link_iff_partial : forall outer test_name args ex, define_native_example outer test_name args = Some ex ->
  ex_target ex <> "" -> (links (ex_link ex) (ex_target ex) "dsdl-regulated" <-> test_name = Some (ex_target ex)).
Proof.
  intros outer test_name args ex E NE. unfold define_native_example in E. destruct args as [| name [| dir files]]; try discriminate E.
  destruct (optional_files outer (name :: dir :: files)); [| discriminate E]. inversion E; subst; clear E. cbn [ex_link ex_target] in *.
  unfold links. destruct test_name as [t |]; cbn [unquoted].
  - destruct (String.eqb_spec t "") as [-> | NT]; cbn [List.app].
    + split; [intros (ls & X & I); inversion X; subst; destruct I | intros X; inversion X; congruence].
    + split; [intros (ls & X & I); inversion X; reflexivity | intros X; inversion X; subst; eexists; split; [reflexivity | now left]].
  - cbn [List.app]. split; [intros (ls & X & I); inversion X; subst; destruct I | discriminate].
Qed.
Print Assumptions C157_link_iff_partial.
(** Ten files, and three lookup directories. *)
Example C157_case :
  (exists ex, define_native_example (fun _ => None) None ["e"; "d"; "0"; "1"; "2"; "3"; "4"; "5"; "6"; "7"; "8"; "9"] = Some ex /\
     ex_sources ex = ["0"; "1"; "2"; "3"; "4"; "5"; "6"; "7"; "8"; "9"]) /\
  list_outputs (fun _ => None) ["t"; "out"; "templates"; "uavcan"; "ON"; "a"; "b"; "c"] =
    Some ["--list-outputs"; "--output-extension"; ".hpp"; "-O"; "out"; " -I b"; " -I c"; " -I "; "uavcan"] /\
  list_outputs (fun _ => None) ["t"; "out"; "templates"; "uavcan"; "ON"] =
    Some ["--list-outputs"; "--output-extension"; ".hpp"; "-O"; "out"; "uavcan"].
Proof. split; [eexists; split; reflexivity | split; reflexivity]. Qed.

(** C158. Full statement: with ordinary flags, for either language, each macro has the value [chosen] of what the user sets and of the
    default, and the code's switch is on if and only if CMake takes that value for true. For tracing and for exceptions the first is so: *)
Theorem C158_trace : forall o cxx flags v, ordinary flags ->
  (gives (apply_flag_set o cxx flags) "LIBUAVCAN_INTROSPECTION_TRACE_ENABLE" v <-> chosen (o_trace o) (on_in_debug o) = Some v).
Proof.
  intros o cxx flags v H. rewrite (gives_trace o cxx flags v H). unfold trace_set, chosen, on_in_debug. destruct (o_trace o); reflexivity.
Qed.
Print Assumptions C158_trace.
Theorem C158_exceptions : forall o cxx flags v, ordinary flags ->
  (gives (apply_flag_set o cxx flags) "LIBUAVCAN_ENABLE_EXCEPTIONS" v <->
   o_exceptions o = Some v \/ o_exceptions o = None /\ In "-fexceptions" cxx /\ v = "1").
Proof.
  intros o cxx flags v H. rewrite (gives_exceptions o cxx flags v H). unfold exceptions_set. destruct (o_exceptions o) as [x |].
  - split; [tauto | intros [E | (E & _)]; [assumption | discriminate E]].
  - destruct (existsb (String.eqb "-fexceptions") cxx) eqn:E.
    + apply existsb_in in E. split; [intros X; inversion X; tauto | intros [X | (_ & _ & ->)]; [discriminate X | reflexivity]].
    + split; [discriminate |]. intros [X | (_ & I & _)]; [discriminate X |]. apply existsb_in in I. congruence.
Qed.
Print Assumptions C158_exceptions.

(** For assertions it is not: in a debug build without exceptions they are on although the user sets the option to 0, *)
Theorem C158_assert_refuted : exists o cxx flags, ordinary flags /\ o_assert o = Some "0" /\
  gives (apply_flag_set o cxx flags) "LIBUAVCAN_INTROSPECTION_ENABLE_ASSERT" "1" /\
  ~ gives (apply_flag_set o cxx flags) "LIBUAVCAN_INTROSPECTION_ENABLE_ASSERT" "0".
Proof.
  exists (Options None (Some "0") None "Debug"), ["-fno-exceptions"], ["-fno-exceptions"].
  assert (ordinary ["-fno-exceptions"]) as H by (intros f [<- | []]; reflexivity).
  repeat split; [assumption | | ].
  - apply (proj2 (gives_assert _ _ _ _ H)). reflexivity.
  - intros C. apply (proj1 (gives_assert _ _ _ _ H)) in C. discriminate C.
Qed.
Print Assumptions C158_assert_refuted.
(** and exactly: it is as it should be, unless the user sets this option, but not exceptions, in a debug build without them, or a
    debug build has exceptions, or the option for them, and the user does not set this one. *)
Theorem C158_assert_iff_partial : forall o cxx flags, ordinary flags ->
  ((forall v, gives (apply_flag_set o cxx flags) "LIBUAVCAN_INTROSPECTION_ENABLE_ASSERT" v <-> chosen (o_assert o) (on_in_debug o) = Some v) <->
   (o_build_type o = "Debug" ->
    if o_exceptions o then o_assert o <> None
    else if existsb (String.eqb "-fexceptions") cxx then o_assert o <> None else o_assert o = None \/ o_assert o = Some "1")).
Proof.
  intros o cxx flags H.
  assert ((forall v, gives (apply_flag_set o cxx flags) "LIBUAVCAN_INTROSPECTION_ENABLE_ASSERT" v <-> chosen (o_assert o) (on_in_debug o) = Some v) <->
          assert_set o cxx = chosen (o_assert o) (on_in_debug o)) as ->.
  { split.
    - intros A. destruct (assert_set o cxx) as [v |] eqn:E.
      + symmetry. apply A. apply (proj2 (gives_assert o cxx flags v H)). exact E.
      + destruct (chosen (o_assert o) (on_in_debug o)) as [w |] eqn:F; [| reflexivity].
        pose proof (proj2 (A w) eq_refl) as G. apply (proj1 (gives_assert o cxx flags w H)) in G. congruence.
    - intros A v. rewrite (gives_assert o cxx flags v H), A. reflexivity. }
  unfold assert_set, exceptions_set, chosen, on_in_debug.
  destruct (String.eqb_spec (o_build_type o) "Debug") as [D | D].
  - destruct (o_exceptions o); [| destruct (existsb (String.eqb "-fexceptions") cxx)]; destruct (o_assert o) as [w |];
      split; intros X; try (intros _); try reflexivity; try congruence; try (specialize (X D)); try congruence; try tauto.
    + right. congruence.
    + destruct X as [X | X]; congruence.
  - destruct (o_exceptions o); [| destruct (existsb (String.eqb "-fexceptions") cxx)]; destruct (o_assert o) as [w |];
      split; intros X; try reflexivity; intros C; congruence.
Qed.
Print Assumptions C158_assert_iff_partial.

(** The switches in the headers agree with CMake on numbers. *)
Theorem C158_numbers : forall v, number v = true -> switch (Some v) = cmake_true v.
Proof.
  intros v D. unfold switch, pp_if, cmake_true. rewrite D. rewrite <- all_digits_number in D. rewrite D. cbn [existsb].
  assert (forall w, all_digits w = false -> String.eqb v w = false) as N.
  { intros w Hw. apply String.eqb_neq. intros ->. congruence. }
  rewrite !N by reflexivity. reflexivity.
Qed.
Print Assumptions C158_numbers.
(** But not on words: a switch set to a word is off, unless the word is true. *)
Theorem C158_on_is_off_refuted : forall v, word v = true -> cmake_true v = Some true -> switch (Some v) = Some false.
Proof.
  intros v W T. unfold switch, pp_if. rewrite <- is_word_word in W.
  assert (all_digits v = false) as D.
  { destruct (all_digits v) eqn:E; [| reflexivity]. exfalso. destruct v as [| c v]; [discriminate E |].
    unfold all_digits in E. unfold is_word in W. cbn [list_ascii_of_string forallb] in E, W.
    apply andb_prop in E, W. destruct E as [_ E], W as [_ W]. apply andb_prop in E, W. destruct E as [E _], W as [W _].
    unfold digit in E. unfold letter in W. remember (nat_of_ascii c) as n.
    destruct (andb (48 <=? n)%nat (n <=? 57)%nat) eqn:B; [| discriminate E]. apply andb_prop in B. destruct B as [B1 B2].
    apply Nat.leb_le in B1, B2. apply orb_prop in W. destruct W as [W | W]; [| apply Nat.eqb_eq in W; lia].
    apply orb_prop in W. destruct W as [W | W]; apply andb_prop in W; destruct W as [W1 W2]; apply Nat.leb_le in W1, W2; lia. }
  rewrite D, W. f_equal. apply String.eqb_neq. intros ->. discriminate T.
Qed.
Print Assumptions C158_on_is_off_refuted.
(** Exactly: it is on for a number that has another digit than 0, and for the word true. Without the macro it is off. *)
Theorem C158_on_iff_partial : switch None = Some false /\ forall macro, switch macro = Some true <->
  macro = Some "true" \/ exists v, macro = Some v /\ number v = true /\ exists c, In c (list_ascii_of_string v) /\ c <> "0"%char.
Proof.
  split; [reflexivity |]. intros [v |]; cbn [switch].
  - unfold pp_if. rewrite all_digits_number, is_word_word. split.
    + destruct (number v) eqn:D.
      * intros E. injection E as E'. apply existsb_exists in E'. destruct E' as (c & I & N). right. exists v. split; [reflexivity |]. split; [reflexivity || assumption |].
        exists c. split; [assumption |]. apply negb_true_iff in N. intros ->. discriminate N.
      * destruct (word v); [| discriminate]. intros E. injection E as E'. apply String.eqb_eq in E'. left. now rewrite E'.
    + intros [E | (w & E & D & c & I & N)]; inversion E; subst; [reflexivity |]. rewrite D. f_equal. apply existsb_exists. exists c.
      split; [assumption |]. apply negb_true_iff. destruct (Ascii.eqb_spec c "0"); [contradiction | reflexivity].
  - split; [discriminate |]. intros [E | (v & E & _)]; discriminate E.
Qed.
Print Assumptions C158_on_iff_partial.

(** Where the user does not set the option for exceptions, the code throws if and only if the flag set mentions -fexceptions or does not
    switch exceptions off. *)
Theorem C158_throws_iff : forall o cxx flags macro, ordinary flags -> o_exceptions o = None ->
  (forall v, macro = Some v <-> gives (apply_flag_set o cxx flags) "LIBUAVCAN_ENABLE_EXCEPTIONS" v) ->
  (throws macro cxx = Some true <-> In "-fexceptions" cxx \/ ~ exceptions_off cxx) /\
  (throws macro cxx = Some false <-> ~ In "-fexceptions" cxx /\ exceptions_off cxx).
Proof.
  intros o cxx flags macro Hf N Hm.
  assert (macro = exceptions_set o cxx) as ->.
  { destruct macro as [v |].
    - symmetry. apply (gives_exceptions o cxx flags v Hf). now apply Hm.
    - destruct (exceptions_set o cxx) as [v |] eqn:E; [| reflexivity]. apply (gives_exceptions o cxx flags v Hf) in E. now apply Hm in E. }
  pose proof (compiler_exceptions_off cxx) as Off. unfold exceptions_set. rewrite N.
  destruct (existsb (String.eqb "-fexceptions") cxx) eqn:E.
  - apply existsb_in in E. change (throws (Some "1") cxx) with (Some true). split; [tauto |].
    split; [discriminate | tauto].
  - assert (~ In "-fexceptions" cxx) as NI by (intros I; apply existsb_in in I; congruence). cbn [throws].
    rewrite <- Off. clear Off. destruct (compiler_exceptions cxx).
    + split; split; intros H; [right; discriminate | reflexivity | discriminate H | destruct H as [_ H]; discriminate H].
    + split; split; intros H; [discriminate H | destruct H as [H | H]; [contradiction | exfalso; now apply H] | now split | reflexivity].
Qed.
Print Assumptions C158_throws_iff.

(** The build type. Full statement: [configured_type from_env s env = shell_type env], what the scripts say they build. The script for
    Linux builds no debug build unless told to, and not even then with versions of CMake that do not look in the environment: *)
Theorem C158_build_type_refuted : forall from_env, configured_type from_env LinuxBuild None <> shell_type None.
Proof. intros [|]; discriminate. Qed.
Print Assumptions C158_build_type_refuted.
Theorem C158_build_type_iff_partial : forall from_env s env,
  (configured_type from_env s env = shell_type env <-> s <> LinuxBuild \/ env = Some "" \/ (from_env = true /\ env <> None)).
Proof.
  intros from_env s env. destruct s; cbn [configured_type shell_type];
    try (split; [intros _; left; discriminate | reflexivity]).
  destruct from_env, env as [t |]; cbn [shell_type]; split; intros H; try reflexivity.
  - right. right. split; [reflexivity | discriminate].
  - discriminate H.
  - destruct H as [H | [H | (_ & H)]]; congruence.
  - right. left. congruence.
  - destruct H as [H | [H | (H & _)]]; congruence.
  - discriminate H.
  - destruct H as [H | [H | (H & _)]]; congruence.
Qed.
Print Assumptions C158_build_type_iff_partial.
(** In words of the scripts: what is in the environment, and else a debug build. *)
Theorem C158_build_type_default : forall from_env s env, s <> LinuxBuild ->
  (env = None -> configured_type from_env s env = "Debug") /\ (forall t, env = Some t -> configured_type from_env s env = t).
Proof. intros from_env s env H. destruct s; try (now destruct H); cbn [configured_type shell_type]; (split; [intros ->; reflexivity | intros t ->; reflexivity]). Qed.
Print Assumptions C158_build_type_default.

(** The unit tests with exceptions, debug build; and tracing set to ON. *)
Example C158_case :
  ordinary ["-std=c++11"; "-fno-exceptions"; "-DDEBUG"; "-fexceptions"] /\
  apply_flag_set (Options None None None "Debug") ["-std=c++11"; "-fno-exceptions"; "-DDEBUG"; "-fexceptions"]
                 ["-std=c++11"; "-fno-exceptions"; "-DDEBUG"; "-fexceptions"] =
    ["-std=c++11"; "-fno-exceptions"; "-DDEBUG"; "-fexceptions"; "-DLIBUAVCAN_ENABLE_EXCEPTIONS=1"; "-DLIBUAVCAN_INTROSPECTION_TRACE_ENABLE=1"] /\
  compiler_exceptions ["-std=c++11"; "-fno-exceptions"; "-DDEBUG"; "-fexceptions"] = true /\
  is_word "ON" = true /\ cmake_true "ON" = Some true /\ switch (Some "ON") = Some false /\ switch (Some "10") = Some true.
Proof. split; [intros f [<- | [<- | [<- | [<- | []]]]]; reflexivity | repeat split]. Qed.
