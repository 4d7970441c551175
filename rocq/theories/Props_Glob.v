(** C168: which files the format check looks at. *)
From Coq Require Import ZArith Bool Ascii String List Lia.
From Verif Require Import ToolsModel ToolsSpec ToolsProofs GlobModel GlobSpec GlobProofs.
Import ListNotations.
Open Scope string_scope.
Open Scope list_scope.

(** C168. Full statement: for every file system, every directory [project] and every clang-format that works,
      format_target in_class clang_format root project = 0 ->
      forall p, header_of root project p -> needs (path_text p) = []
    up to what C124 already says, because the files found are exactly the headers:
      forall p, In p (globbed in_class root project) <-> header_of root project p.
    The second is false, and with it the first, for names that begin with a dot: they are skipped. *)
Definition ex_dotted : entry :=
  Dir [("src", Dir [("libuavcan", Dir [("include", Dir [("libuavcan", Dir [("time.hpp", File); (".detail", Dir [("can.hpp", File)])])])])])].
Definition ex_dotted_header : list string := ["src"; "libuavcan"; "include"; "libuavcan"; ".detail"; "can.hpp"].
Definition ex_wants (bad : list string) (f : string) : list change := if String.eqb f (path_text bad) then [Change "120" "1" ""] else [].
Definition ex_format (bad : list string) (f : string) : formatted := Formatted 0 (Some (printed " " "false" (ex_wants bad f))).
Lemma ex_format_works : forall bad f, works (ex_format bad) (ex_wants bad) f.
Proof. intros bad f. exists " ", "false". unfold ex_format, ex_wants. destruct (String.eqb f (path_text bad)); reflexivity. Qed.

Theorem C168_dotted_header_passes_refuted : exists clang_format needs root project p,
  proper root /\ Forall (fun n => ~ wild n) project /\ (forall f, works clang_format needs f) /\
  header_of root project p /\ needs (path_text p) <> [] /\ (forall c, In c (needs (path_text p)) -> unreadable c = false) /\
  forall in_class, format_target in_class clang_format root project = 0%Z.
Proof.
  exists (ex_format ex_dotted_header), (ex_wants ex_dotted_header), ex_dotted, ["src"], ex_dotted_header. repeat match goal with |- _ /\ _ => split end.
  - cbn. repeat (split || constructor); cbn; intuition discriminate.
  - repeat constructor. apply not_magic_iff. reflexivity.
  - apply ex_format_works.
  - exists ["libuavcan"; ".detail"], "can.hpp". repeat split. now exists "can".
  - discriminate.
  - intros c [<-|[]]. reflexivity.
  - intros cl. reflexivity.
Qed.
Print Assumptions C168_dotted_header_passes_refuted.

(** And for a checkout in a directory whose name is a pattern: "lib[1]" stands for "lib1", so the headers of a neighbour are
    checked and none of the project itself. *)
Definition ex_neighbours : entry :=
  Dir [("lib1", Dir [("libuavcan", Dir [("include", Dir [("time.hpp", File)])])]);
       ("lib[1]", Dir [("libuavcan", Dir [("include", Dir [("time.hpp", File)])])])].
Definition ex_own_header : list string := ["lib[1]"; "libuavcan"; "include"; "time.hpp"].
Theorem C168_pattern_in_path_refuted : exists clang_format needs root project p,
  proper root /\ Forall (fun n => ~ dotted n) p /\ (forall f, works clang_format needs f) /\
  header_of root project p /\ needs (path_text p) <> [] /\ (forall c, In c (needs (path_text p)) -> unreadable c = false) /\
  forall in_class, in_class "1" "1"%char = true -> in_class "1" "["%char = false -> format_target in_class clang_format root project = 0%Z.
Proof.
  exists (ex_format ex_own_header), (ex_wants ex_own_header), ex_neighbours, ["lib[1]"], ex_own_header. repeat match goal with |- _ /\ _ => split end.
  - cbn. repeat (split || constructor); cbn; intuition discriminate.
  - repeat constructor; intros [r E]; discriminate.
  - apply ex_format_works.
  - exists [], "time.hpp". repeat split. now exists "time".
  - discriminate.
  - intros c [<-|[]]. reflexivity.
  - intros cl H1 H2. unfold format_target.
    assert (E : globbed cl ex_neighbours ["lib[1]"] = [["lib1"; "libuavcan"; "include"; "time.hpp"]]) by (cbn; rewrite H1, H2; reflexivity).
    rewrite E. vm_compute. reflexivity.
Qed.
Print Assumptions C168_pattern_in_path_refuted.

(** What is checked, if no directory on the way to the project has the characters * ? [ in its name: everything below the
    include directory whose name ends in .hpp, at any depth, unless a name below that directory begins with a dot. *)
Theorem C168_checked_iff_partial : forall in_class root project p, proper root -> Forall (fun n => ~ wild n) project ->
  (In p (globbed in_class root project) <->
   exists dirs name, p = project ++ ["libuavcan"; "include"] ++ dirs ++ [name] /\
     (exists e, lookup root p = Some e) /\ hpp name /\ Forall (fun n => ~ dotted n) (dirs ++ [name])).
Proof. exact globbed_plain. Qed.
Print Assumptions C168_checked_iff_partial.

(** For any other way: the same in all directories that the way to the project stands for as a pattern. *)
Theorem C168_pattern_iff_partial : forall in_class root project p, proper root ->
  (In p (globbed in_class root project) <->
   exists base dirs name, p = base ++ ["libuavcan"; "include"] ++ dirs ++ [name] /\ path_for in_class project base /\
     (exists e, lookup root p = Some e) /\ hpp name /\ Forall (fun n => ~ dotted n) (dirs ++ [name])).
Proof. exact globbed_iff. Qed.
Print Assumptions C168_pattern_iff_partial.

(** So the files checked are exactly the headers iff no header has a dotted name below the include directory and no
    directory there that has no dotted name is called like a header. *)
Theorem C168_exactly_iff_partial : forall in_class root project, proper root -> Forall (fun n => ~ wild n) project ->
  ((forall p, In p (globbed in_class root project) <-> header_of root project p) <->
   (forall dirs name, let p := project ++ ["libuavcan"; "include"] ++ dirs ++ [name] in hpp name ->
      (lookup root p = Some File -> Forall (fun n => ~ dotted n) (dirs ++ [name])) /\
      (directory root p -> ~ Forall (fun n => ~ dotted n) (dirs ++ [name])))).
Proof. exact hpp_dec_dir. Qed.
Print Assumptions C168_exactly_iff_partial.

(** Together with C124: under these conditions the target succeeds iff there is a header and each header needs no change
    or has a replacement with a character that XML forbids. *)
Theorem C168_target_iff_partial : forall in_class clang_format needs root project, proper root -> Forall (fun n => ~ wild n) project ->
  (forall dirs name, let p := project ++ ["libuavcan"; "include"] ++ dirs ++ [name] in hpp name ->
     (lookup root p = Some File -> Forall (fun n => ~ dotted n) (dirs ++ [name])) /\
     (directory root p -> ~ Forall (fun n => ~ dotted n) (dirs ++ [name]))) ->
  (forall p, header_of root project p -> works clang_format needs (path_text p)) ->
  (format_target in_class clang_format root project = 0%Z <->
   (exists p, header_of root project p) /\
   forall p, header_of root project p -> needs (path_text p) = [] \/ exists c, In c (needs (path_text p)) /\ unreadable c = true).
Proof.
  intros cl cf needs root project P W H Wk. pose proof (proj2 (hpp_dec_dir cl root project P W) H) as G. unfold format_target.
  destruct (globbed cl root project) as [|p0 ps] eqn:E.
  - split; [discriminate|]. intros [[p Hp] _]. apply G in Hp. destruct Hp.
  - rewrite <- E in *. destruct (format_check_works "clang-format" cf needs (map path_text (globbed cl root project))) as (st & Ec & _ & Iff).
    + rewrite E. discriminate.
    + intros f I. apply in_map_iff in I. destruct I as (p & <- & I). apply Wk. now apply G.
    + rewrite Ec. cbn [fst]. rewrite Iff. split.
      * intros A. split; [exists p0; apply G; rewrite E; now left|]. intros p Hp. apply A. apply in_map. now apply G.
      * intros [_ A] f I. apply in_map_iff in I. destruct I as (p & <- & I). apply A. now apply G.
Qed.
Print Assumptions C168_target_iff_partial.

(** The include directory as it is: the eight headers are found, the templates are not. *)
Definition ex_include_tree : entry :=
  Dir [("repo", Dir [("libuavcan", Dir [("include", Dir [("libuavcan",
    Dir [("util", Dir [("math.hpp", File)]); ("time.hpp", File); ("platform", Dir [("memory.hpp", File)]); ("introspection.hpp", File);
         ("media", Dir [("can.hpp", File); ("interfaces.hpp", File)]);
         ("templates", Dir [("ServiceType.j2", File); ("StructureType.j2", File); ("UnionType.j2", File); ("Header.j2", File)]);
         ("libuavcan.hpp", File); ("build_config.hpp", File)])])])])].
Example C168_checked_case : proper ex_include_tree /\ Forall (fun n => ~ wild n) ["repo"] /\
  forall in_class, map path_text (globbed in_class ex_include_tree ["repo"]) =
    ["/repo/libuavcan/include/libuavcan/time.hpp"; "/repo/libuavcan/include/libuavcan/introspection.hpp";
     "/repo/libuavcan/include/libuavcan/libuavcan.hpp"; "/repo/libuavcan/include/libuavcan/build_config.hpp";
     "/repo/libuavcan/include/libuavcan/util/math.hpp"; "/repo/libuavcan/include/libuavcan/platform/memory.hpp";
     "/repo/libuavcan/include/libuavcan/media/can.hpp"; "/repo/libuavcan/include/libuavcan/media/interfaces.hpp"].
Proof.
  split; [|split].
  - cbn. repeat (split || constructor); cbn; intuition discriminate.
  - repeat constructor. apply not_magic_iff. reflexivity.
  - intros cl. reflexivity.
Qed.
(** A checkout under a name with a question mark below a directory called **. *)
Definition ex_strange : entry :=
  Dir [("**", Dir [("v1?", Dir [])]); ("home", Dir [("a", Dir [("v10", Dir [("libuavcan", Dir [("include", Dir [("a.hpp", File)])])])])])].
Example C168_pattern_case : forall in_class, proper ex_strange /\ path_for in_class ["**"; "v1?"] ["home"; "a"; "v10"] /\
  globbed in_class ex_strange ["**"; "v1?"] = [["home"; "a"; "v10"; "libuavcan"; "include"; "a.hpp"]].
Proof.
  intros cl. repeat match goal with |- _ /\ _ => split end.
  - cbn. repeat (split || constructor); cbn; intuition discriminate.
  - apply (path_any cl ["home"; "a"]); [repeat constructor; intros [r E]; discriminate|].
    constructor; [discriminate| |constructor].
    right. split; [apply magic_iff; reflexivity|]. split; [apply fnmatch_iff; reflexivity|]. intros [r E]. discriminate.
  - reflexivity.
Qed.
(** The conditions of the exact theorems hold of a small tree, and the target succeeds or fails with the header. *)
Definition ex_small : entry := Dir [("libuavcan", Dir [("include", Dir [("time.hpp", File)])])].
Example C168_target_case :
  (forall dirs name, let p := [] ++ ["libuavcan"; "include"] ++ dirs ++ [name] in hpp name ->
     (lookup ex_small p = Some File -> Forall (fun n => ~ dotted n) (dirs ++ [name])) /\
     (directory ex_small p -> ~ Forall (fun n => ~ dotted n) (dirs ++ [name]))) /\
  header_of ex_small [] ["libuavcan"; "include"; "time.hpp"] /\
  forall in_class, format_target in_class (ex_format ex_own_header) ex_small [] = 0%Z /\
    format_target in_class (ex_format ["libuavcan"; "include"; "time.hpp"]) ex_small [] = 255%Z.
Proof.
  split; [|split].
  - intros dirs name p Hh. subst p. cbn [app].
    assert (forall e, lookup ex_small ("libuavcan" :: "include" :: dirs ++ [name]) = Some e -> dirs = [] /\ name = "time.hpp" /\ e = File) as K.
    { intros e L. change (lookup (Dir [("time.hpp", File)]) (dirs ++ [name]) = Some e) in L. destruct dirs as [|d dirs]; cbn [app lookup find fst] in L.
      - destruct (String.eqb_spec "time.hpp" name) as [<-|N]; [injection L as <-; auto|discriminate].
      - destruct (String.eqb "time.hpp" d); [|discriminate]. destruct dirs; discriminate. }
    split.
    + intros L. apply K in L. destruct L as (-> & -> & _). repeat constructor. intros [r E]. discriminate.
    + intros [cs L]. apply K in L. destruct L as (_ & _ & X). discriminate.
  - exists [], "time.hpp". repeat split. now exists "time".
  - intros cl. split; vm_compute; reflexivity.
Qed.
