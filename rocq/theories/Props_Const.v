(** C175: the constants of the library. *)
From Coq Require Import Bool List Arith ZArith Lia.
From Verif Require Import ConstModel ConstSpec ConstProofs.
Import ListNotations.

(** Full statement (false): a program may use the documented constants in any expression, without definitions of its own. In C++11 and C++14 this is so
    only for their values: there are no definitions of the static members, so that std::min(length, FrameType::MTUBytes) does not link. *)
Theorem C175_any_use_refuted :
  ~ (forall p, (201100 < version p < 201800)%Z -> (forall c, ~ defined_by_program p c) -> correct p).
Proof.
  intros A. specialize (A (Program 201402 [Piece [Bind (Name (Member MTUBytes 8))] []] [])).
  assert (N : forall c, ~ defined_by_program (Program 201402 [Piece [Bind (Name (Member MTUBytes 8))] []] []) c) by (intros c (u & [<- | []] & [])).
  destruct (A ltac:(cbn; lia) N) as (L & _). specialize (L (fun _ _ => true)). discriminate L.
Qed.
Print Assumptions C175_any_use_refuted.

(** Nor in C++17: the constants at namespace scope are other objects in each unit, so that a function of a header must not bind a reference to one. *)
Theorem C175_in_a_header_refuted :
  ~ (forall p, version p = 201703%Z -> correct p).
Proof.
  intros A. destruct (A (Program 201703 [Piece [] []; Piece [] []] [Bind (Name (Global TailByteSize))]) eq_refl) as (_ & S1). discriminate S1.
Qed.
Print Assumptions C175_in_a_header_refuted.

(** In C++11 not even every use of the value alone: fd ? Frame64::MTUBytes : Frame8::MTUBytes. *)
Theorem C175_conditional_refuted :
  ~ (forall e, correct (Program 201103 [Piece [Convert (Cond Other (Name (Member MTUBytes 64)) e)] []] [])).
Proof. intros A. destruct (A (Name (Member MTUBytes 8))) as (L & _). specialize (L (fun _ _ => true)). discriminate L. Qed.
Print Assumptions C175_conditional_refuted.

(** Exactly these programs are correct, with every compiler. *)
Theorem C175_correct_iff_partial : forall p,
  correct p <->
  (forall e c, in_program p e -> is_member c -> used_as_object (version p) e c -> (201703 <= version p)%Z \/ defined_by_program p c) /\
  (forall s n, (version p < 201703)%Z -> ~ defined_twice p (Generated s n)) /\
  ((length (pieces p) <= 1)%nat \/ forall e g, In e (shared p) -> ~ used_as_object (version p) e (Global g)).
Proof. exact correct_iff. Qed.
Print Assumptions C175_correct_iff_partial.

Example C175_correct_iff_partial_case :
  let use := Operands (Bind (Name (Member MTUBytes 8))) (Bind (Name (Generated 1 2))) in
  correct (Program 201103 [Piece [use] [Member MTUBytes 8; Generated 1 2]; Piece [use; Bind (Name (Global BytePadding))] [Member MTUBytes 8]] []) /\
  ~ correct (Program 201103 [Piece [use] [Member MTUBytes 64; Generated 1 2]] []) /\
  ~ correct (Program 201103 [Piece [] [Generated 1 2]; Piece [] [Generated 1 2]] []) /\
  correct (Program 201703 [Piece [use] [Generated 1 2]; Piece [use] [Generated 1 2]] [use]).
Proof.
  cbv zeta. split; [|split; [|split]].
  - apply correct_iff. split; [|split].
    + intros e c I M U. right. apply odr_uses_object in U. apply in_program_iff in I. cbn in I. destruct I as [<- | [<- | [<- | []]]]; cbn in U.
      * destruct U as [<- | [<- | []]]; eexists; (split; [now left | cbn; auto]).
      * destruct U as [<- | [<- | []]]; eexists; (split; [now left | cbn; auto]).
      * destruct U as [<- | []]. destruct (M BytePadding eq_refl).
    + intros s n _ D. apply definitions_two in D. unfold definitions in D. cbn [pieces filter defines] in D.
      destruct (in_dec constant_eq_dec (Generated s n) [Member MTUBytes 8]) as [[Q | []] | _]; [discriminate Q|].
      destruct (in_dec constant_eq_dec (Generated s n) [Member MTUBytes 8; Generated 1 2]); discriminate D.
    + right. intros e g [].
  - intros (L & _). specialize (L (fun _ _ => true)). discriminate L.
  - intros (L & _). specialize (L (fun _ _ => true)). discriminate L.
  - apply correct_iff. split; [|split].
    + intros e c _ _ _. left. cbn. lia.
    + intros s n V. cbn in V. lia.
    + right. intros e g [<- | []] U. apply odr_uses_object in U. cbn in U. destruct U as [U | [U | []]]; discriminate U.
Qed.

(** With one compiler, which may use the value where the object was meant. *)
Theorem C175_links_iff : forall k p,
  links k p = true <->
  (forall e c, in_program p e -> is_member c -> used_as_object (version p) e c -> k e c = true ->
     (201703 <= version p)%Z \/ defined_by_program p c) /\
  (forall s n, (version p < 201703)%Z -> ~ defined_twice p (Generated s n)).
Proof. exact links_iff. Qed.
Print Assumptions C175_links_iff.

(** So a program that uses only the values is correct, in every version. *)
Theorem C175_values : forall p,
  (forall c, ~ defined_by_program p c) ->
  (forall e way c, in_program p e -> part e way = Some (Name c) -> by_value (version p) way) -> correct p.
Proof.
  intros p N B. apply correct_iff. split; [|split].
  - intros e c I _ (way & P & U). destruct (U (B e way c I P)).
  - intros s n _ (us & u & vs & w & ws & E & D & _). apply (N (Generated s n)). exists u. split; [rewrite E; apply in_or_app; right; now left | exact D].
  - right. intros e g I (way & P & U). apply U. apply (B e way (Global g)); [now left | exact P].
Qed.
Print Assumptions C175_values.

Example C175_values_case :
  let p := Program 201103 [Piece [Operands (Convert (Name (Member BlockSize 1))) Other] []; Piece [] []] [Convert (Name (Global TailByteSize))] in
  (forall e way c, in_program p e -> part e way = Some (Name c) -> by_value (version p) way) /\ correct p.
Proof.
  assert (X : forall e way c,
    in_program (Program 201103 [Piece [Operands (Convert (Name (Member BlockSize 1))) Other] []; Piece [] []] [Convert (Name (Global TailByteSize))]) e ->
    part e way = Some (Name c) -> by_value 201103 way).
  { intros e way c I P. apply in_program_iff in I. cbn in I. destruct I as [<- | [<- | []]].
    - destruct way as [|[] way]; try discriminate P. exists [], OfConvert, way. split; [reflexivity|]. split; [now left|].
      destruct way as [|[] way]; try discriminate P. constructor.
    - destruct way as [|[] way]; try discriminate P.
      + destruct way as [|[] way]; try discriminate P. exists [First], OfConvert, way. split; [reflexivity|]. split; [now left|].
        destruct way as [|[] way]; try discriminate P. constructor.
      + destruct way as [|[] way]; discriminate P. }
  cbv zeta. split; [exact X|]. apply C175_values; [|exact X]. intros c (u & [<- | [<- | []]] & []).
Qed.

(** Since C++14 a conditional operator whose result is used for its value uses the constants behind it for their values. *)
Theorem C175_since_14 : forall v b x y c, (201402 <= v)%Z ->
  (used_as_object v (Convert (Cond b (Name x) (Name y))) c <-> used_as_object v (Convert b) c).
Proof.
  intros v b x y c V. rewrite <- !odr_uses_object. cbn [odr_uses]. assert (L : looks_through v = true) by (apply looks_through_iff; exact V).
  rewrite L. cbn. now rewrite app_nil_r.
Qed.
Print Assumptions C175_since_14.

(** The library itself, and the suite with its copy of MTUBytes, use only values of static members, in every version. *)
Theorem C175_library : forall v f e c,
  In e (library_expressions f) \/ e = suite_expression f -> ~ used_as_object v e c.
Proof.
  intros v f e c I U. apply odr_uses_object in U. cbn [library_expressions In] in I.
  destruct I as [[<- | [<- | []]] | ->]; cbn in U; exact U.
Qed.
Print Assumptions C175_library.

Example C175_library_case :
  part (suite_expression 8) [First; OfConvert] = Some (Name (Member MTUBytes 8)) /\
  used_as_object 201103 (Operands (Bind (Name (Member MTUBytes 8))) (Bind Other)) (Member MTUBytes 8).
Proof. split; [reflexivity|]. apply odr_uses_object. now left. Qed.

Example C175_links_iff_case :
  let p := Program 201402 [Piece [Bind (Name (Member MTUBytes 8))] []] [] in
  links (fun _ _ => false) p = true /\ links (fun _ _ => true) p = false.
Proof. split; reflexivity. Qed.
