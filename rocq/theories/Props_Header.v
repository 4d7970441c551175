(** C174: the headers of the library can be included in any order and any number of times, each by itself. *)
From Coq Require Import Bool List String ZArith Lia.
From Verif Require Import HeaderModel HeaderSpec HeaderProofs.
Import ListNotations.
Open Scope string_scope.
Open Scope list_scope.

(** C174, full statement (false): a unit that includes any headers of the library and of the standard library, in any order, is compiled without an
    error, with every implementation of the standard library and every supported version of the language.

    Refuted: with a standard library whose headers declare what they have to and no more, can.hpp by itself is an error. *)
Theorem C174_any_order_refuted :
  ~ (forall more c defined u, no_guards defined -> supported c -> accepted more c defined u).
Proof.
  intros A. apply (A (fun _ _ => false) (Settings 201103 false false false false) [] [Lib Can]).
  - intros h [].
  - right. cbn. lia.
  - vm_compute. reflexivity.
Qed.
Print Assumptions C174_any_order_refuted.

(** memory.hpp likewise. *)
Theorem C174_memory_refuted :
  ~ (forall more c defined, no_guards defined -> supported c -> accepted more c defined [Std "algorithm"; Lib Memory]).
Proof.
  intros A. apply (A (fun _ _ => false) (Settings 201703 false true false false) []).
  - intros h [].
  - right. cbn. lia.
  - vm_compute. reflexivity.
Qed.
Print Assumptions C174_memory_refuted.

(** What is true: a unit is compiled with every standard library exactly if it includes <algorithm> before can.hpp and memory.hpp, and, where exceptions
    are enabled, <new> before memory.hpp. Order and repetition do not matter otherwise. *)
Theorem C174_every_library_iff_partial : forall c defined u,
  no_guards defined -> supported c -> ((forall more, accepted more c defined u) <-> prepared c u).
Proof. exact always_accepted_iff. Qed.
Print Assumptions C174_every_library_iff_partial.

Example C174_every_library_iff_partial_case :
  let c := Settings 201402 false true true true in
  supported c /\ no_guards ["NDEBUG"] /\
  (forall more, accepted more c ["NDEBUG"] [Lib Time; Lib Interfaces; Lib Time; Std "new"; Std "algorithm"; Lib Memory; Lib Can; Lib Libuavcan]) /\
  ~ prepared c [Std "algorithm"; Lib Time; Lib Memory; Std "new"].
Proof.
  cbn zeta. assert (V : supported (Settings 201402 false true true true)) by (right; cbn; lia).
  assert (G : no_guards ["NDEBUG"]) by (intros h [E | []]; destruct h; discriminate E).
  split; [exact V | split; [exact G | split]].
  - apply C174_every_library_iff_partial; [exact G | exact V|]. intros b h a x E M.
    do 8 (destruct b as [|i b]; cbn [app] in E;
      [first [discriminate E | injection E as <- <-; cbn in M; first [contradiction | destruct M as [-> | (_ & ->)]; cbn; tauto | subst x; cbn; tauto]] |
       injection E as <- E]).
    destruct b; discriminate E.
  - intros P. specialize (P [Std "algorithm"; Lib Time] Memory [Std "new"] "new" eq_refl). cbn in P.
    destruct P as [P | [P | []]]; try discriminate P. right. split; reflexivity.
Qed.

(** With one given standard library: exactly if what the headers take for granted is declared by a standard header that was included before, by the unit
    or by the library. *)
Theorem C174_one_library_iff_partial : forall more c defined u,
  no_guards defined -> supported c ->
  (accepted more c defined u <->
   forall before h after n, u = before ++ Lib h :: after -> taken_for_granted c h n ->
     exists x, at_hand c (before ++ [Lib h]) x /\ declares more x n = true).
Proof. exact accepted_iff. Qed.
Print Assumptions C174_one_library_iff_partial.

(** So the full statement holds with a standard library whose <array> and <unordered_map> declare these names, as common ones do. *)
Theorem C174_common_libraries_partial : forall more c defined u,
  no_guards defined -> supported c ->
  more "array" "copy" = true -> more "array" "equal" = true -> more "unordered_map" "min" = true -> more "unordered_map" "bad_alloc" = true ->
  accepted more c defined u.
Proof.
  intros more c defined u G V A1 A2 U1 U2. apply (accepted_iff more c defined u G V). intros b h a n _ T.
  destruct h; cbn in T; try contradiction.
  - exists "array". split; [right; exists Can, Can; split; [apply in_or_app; right; now left | split; [constructor | cbn; tauto]]|].
    unfold declares. destruct T as [-> | ->]; rewrite ?A1, ?A2; apply orb_true_r.
  - exists "unordered_map". split; [right; exists Memory, Memory; split; [apply in_or_app; right; now left | split; [constructor | cbn; tauto]]|].
    unfold declares. destruct T as [-> | (_ & ->)]; rewrite ?U1, ?U2; apply orb_true_r.
Qed.
Print Assumptions C174_common_libraries_partial.

Example C174_common_libraries_partial_case :
  let more x n := mem x ["array"; "unordered_map"] && mem n ["copy"; "equal"; "min"; "bad_alloc"] in
  more "array" "copy" = true /\ more "array" "equal" = true /\ more "unordered_map" "min" = true /\ more "unordered_map" "bad_alloc" = true.
Proof. repeat split; reflexivity. Qed.

(** The text of every header that is included, directly or not, is compiled exactly once, whatever the order; no other is. *)
Theorem C174_once : forall more c defined u t,
  no_guards defined -> compile more c defined u = Some t ->
  NoDup (compiled t) /\ forall h, In h (compiled t) <-> exists g, In (Lib g) u /\ reaches c g h.
Proof.
  intros more c defined u t G E. pose proof (compile_case more c defined u G) as C. rewrite E in C.
  destruct C as ((_ & N & _) & I & _). split; [exact N | exact I].
Qed.
Print Assumptions C174_once.

Example C174_once_case :
  let c := Settings 201103 false false false false in
  option_map compiled (compile (fun _ _ => false) c [] [Lib Interfaces; Std "algorithm"; Lib Can; Lib Interfaces]) =
  Some [Can; Interfaces; Time; Math; Introspection; Libuavcan; BuildConfig].
Proof. vm_compute. reflexivity. Qed.

(** With a version of the language that is not supported no header can be included; with LIBUAVCAN_CPP_VERSION_NOCHECK all versions are. *)
Theorem C174_versions : forall more c defined u,
  no_guards defined -> ~ supported c -> (accepted more c defined u <-> forall h, ~ In (Lib h) u).
Proof.
  intros more c defined u G V. pose proof (compile_case more c defined u G) as C. unfold accepted. split.
  - intros A h I. destruct (compile more c defined u) as [t|]; [|contradiction]. destruct C as ((_ & _ & C) & J & _).
    assert (B : In BuildConfig (compiled t)) by (apply J; exists h; split; [exact I | apply reaches_build_config]).
    destruct (C _ B) as (_ & W & _). rewrite (proj2 (version_error_iff c BuildConfig) (conj eq_refl V)) in W. discriminate W.
  - intros N. destruct (compile more c defined u) as [t|]; [discriminate|]. destruct C as (b & h & a & s & -> & _). exfalso.
    apply (N h). apply in_or_app. right. now left.
Qed.
Print Assumptions C174_versions.

Example C174_versions_case :
  ~ supported (Settings 202002 false false false false) /\ ~ supported (Settings 199711 false false false false) /\
  supported (Settings 201703 false false false false) /\ supported (Settings 202002 true false false false) /\
  ~ accepted (fun _ _ => true) (Settings 202002 false false false false) [] [Lib Time].
Proof.
  split; [intros [E | E]; [discriminate E | cbn in E; lia]|]. split; [intros [E | E]; [discriminate E | cbn in E; lia]|].
  split; [right; cbn; lia|]. split; [now left|]. intros A. apply A. vm_compute. reflexivity.
Qed.
