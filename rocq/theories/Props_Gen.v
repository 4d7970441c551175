(** C155-C156: generated headers. *)
From Coq Require Import ZArith Bool List String Ascii Lia.
From Verif Require Import GenModel GenSpec GenProofs.
Import ListNotations.
Open Scope list_scope.
Open Scope Z_scope.

(** C155. Full statement: a translation unit sees the type of every header it includes,
      translate macrofy hs (TUnit [] []) = Some u -> In d hs -> sees u d.
    No function macrofy can make that so for two versions of a type: *)
Theorem C155_versions_refuted : forall macrofy d e hs u, versions_of_one d e -> body d <> body e ->
  translate macrofy hs (TUnit [] []) = Some u -> ~ (sees u d /\ sees u e).
Proof. exact versions_hide. Qed.
Print Assumptions C155_versions_refuted.

(** Exactly: every header's type is seen if and only if no two of them have the same guard, unless they say the same. *)
Theorem C155_all_seen_iff_partial : forall macrofy hs u, translate macrofy hs (TUnit [] []) = Some u ->
  ((forall d, In d hs -> sees u d) <->
   (forall d e, In d hs -> In e hs -> macrofy (full_name d) = macrofy (full_name e) -> qualified d = qualified e /\ body d = body e)).
Proof. exact all_seen_iff. Qed.
Print Assumptions C155_all_seen_iff_partial.

(** Of the headers with one guard the first to be included counts, and none if the macro is defined before. *)
Theorem C155_first_counts : forall macrofy m hs u d, translate macrofy hs (TUnit m []) = Some u ->
  (sees u d <-> exists before e after, hs = before ++ e :: after /\ qualified e = qualified d /\ body e = body d /\
     ~ In (macrofy (full_name e)) m /\ forall x, In x before -> macrofy (full_name x) <> macrofy (full_name e)).
Proof. exact sees_first. Qed.
Print Assumptions C155_first_counts.

(** Any headers can be included in any order and number: no type is defined twice. *)
Theorem C155_never_clash : forall macrofy m hs, exists u, translate macrofy hs (TUnit m []) = Some u /\
  forall q b c, In (q, b) (types u) -> In (q, c) (types u) -> b = c.
Proof. exact headers_never_clash. Qed.
Print Assumptions C155_never_clash.

(** Dots to underscores. *)
Fixpoint dots_to_underscores (s : string) : string :=
  match s with
  | EmptyString => EmptyString
  | String c s => String (if Ascii.eqb c "." then "_"%char else c) (dots_to_underscores s)
  end.
(** Two versions of uavcan.node.Heartbeat, and the types uavcan.node.ID and uavcan.node_ID. *)
Definition heartbeat0 := Def ["uavcan"; "node"]%string "Heartbeat" (1, 0) "uint32_t uptime;".
Definition heartbeat1 := Def ["uavcan"; "node"]%string "Heartbeat" (1, 1) "uint32_t uptime; uint8_t health;".
Definition node_id := Def ["uavcan"; "node"]%string "ID" (1, 0) "uint16_t value;".
Definition node_ID := Def ["uavcan"]%string "node_ID" (1, 0) "uint64_t value;".
Example C155_case :
  (exists u, translate dots_to_underscores [heartbeat0; heartbeat1; node_id; node_ID; heartbeat0] (TUnit [] []) = Some u /\
     sees u heartbeat0 /\ ~ sees u heartbeat1 /\ sees u node_id /\ ~ sees u node_ID) /\
  (exists u, translate dots_to_underscores [heartbeat1; node_id] (TUnit [] []) = Some u /\ sees u heartbeat1 /\ sees u node_id) /\
  versions_of_one heartbeat0 heartbeat1 /\ body heartbeat0 <> body heartbeat1.
Proof.
  split; [| split; [| split]].
  - eexists. split; [vm_compute; reflexivity |]. unfold sees. cbn [types].
    repeat split; try (vm_compute; tauto); intros I; vm_compute in I; repeat destruct I as [I | I]; (discriminate I || assumption).
  - eexists. split; [vm_compute; reflexivity |]. split; vm_compute; tauto.
  - split; reflexivity.
  - discriminate.
Qed.

(** C156. Full statement: [forall fields, keeps_messages fields]. A structure with an array of one byte: *)
Theorem C156_fields_refuted : exists fields, Forall sound fields /\ ~ keeps_messages fields.
Proof.
  assert (Forall sound [Array (Primitive 8) 1]) as So by (repeat constructor; cbn; lia).
  exists [Array (Primitive 8) 1]. split; [assumption |].
  intros K. destruct (proj1 (keeps_iff _ So) K _ (or_introl eq_refl)) as [[bits C] | C]; [discriminate C |].
  assert (VList [VBits 0] = VList [VBits 1]) as X; [| discriminate X].
  apply C; cbn; (split; [reflexivity |]); repeat constructor; lia.
Qed.
Print Assumptions C156_fields_refuted.

(** Exactly: the message can be told from the struct if and only if each field is primitive or has no two values. *)
Theorem C156_keeps_iff_partial : forall fields, Forall sound fields ->
  (keeps_messages fields <-> forall t, In t fields -> (exists bits, t = Primitive bits) \/ empty_of_news t).
Proof. exact keeps_iff. Qed.
Print Assumptions C156_keeps_iff_partial.

(** And of any structure, it keeps exactly the primitive fields, each. *)
Theorem C156_primitives_kept : forall fields m m', message_of fields m -> message_of fields m' ->
  (store_structure fields m = store_structure fields m' <->
   forall i b, nth_error fields i = Some (Primitive b) -> nth_error m i = nth_error m' i).
Proof. exact primitives_kept. Qed.
Print Assumptions C156_primitives_kept.

(** Nothing is kept of a union: whoever reads the generated class gives one answer for all its messages. *)
Theorem C156_union_refuted : forall fields, (2 <= List.length fields)%nat -> Forall sound fields ->
  ~ exists read : list dvalue -> nat * dvalue, forall tag t v, nth_error fields tag = Some t -> value_of t v ->
      read (store_union fields tag v) = (tag, v).
Proof.
  intros [| t0 [| t1 fields]] L So (read & R); cbn [List.length] in L; try lia.
  inversion So as [| ? ? S0 So1]; subst. inversion So1 as [| ? ? S1 So2]; subst.
  pose proof (R 0%nat t0 _ eq_refl (some_value_of t0 S0)) as R0.
  pose proof (R 1%nat t1 _ eq_refl (some_value_of t1 S1)) as R1.
  unfold store_union in *. rewrite R0 in R1. discriminate R1.
Qed.
Print Assumptions C156_union_refuted.

(** Nor of the requests and responses of a service, unless there is nothing to keep. *)
Theorem C156_service_iff_partial : forall request response, Forall sound request -> Forall sound response ->
  (keeps_service request response <-> forall t, In t (request ++ response) -> empty_of_news t).
Proof. exact service_iff. Qed.
Print Assumptions C156_service_iff_partial.
(** A request with a byte, answered with nothing; and a service that only asks for something to be done. *)
Example C156_service_case : Forall sound [Primitive 8] /\ ~ keeps_service [Primitive 8] [] /\ keeps_service [Padding] [].
Proof.
  assert (Forall sound [Primitive 8]) as S1 by (repeat constructor; cbn; lia).
  assert (Forall sound [Padding]) as S2 by (repeat constructor).
  split; [exact S1 | split].
  - intros K. pose proof (proj1 (service_iff _ [] S1 (Forall_nil _)) K (Primitive 8) (or_introl eq_refl)) as X.
    assert (VBits 0 = VBits 1) as Y by (apply X; cbn; lia). discriminate Y.
  - apply (service_iff _ [] S2 (Forall_nil _)). intros t [<- | []]. intros [z | | l] [z' | | l'] Hv Hw; cbn in *; tauto.
Qed.

(** A heartbeat: a 32-bit number, two of 2 and 3 bits, padding of the rest of a byte, and a byte. Its padding carries nothing. And a
    structure with a nested one. *)
Example C156_case :
  keeps_messages [Primitive 32; Primitive 2; Primitive 3; Padding; Primitive 8] /\
  message_of [Primitive 32; Padding; Primitive 8] [VBits 5; VPadding; VBits 255] /\
  store_structure [Primitive 32; Padding; Primitive 8] [VBits 5; VPadding; VBits 255] = [VBits 5; VBits 255] /\
  Forall sound [Composite [Primitive 1]; ArrayUpTo (Primitive 8) 7] /\
  ~ keeps_messages [Composite [Primitive 1]; ArrayUpTo (Primitive 8) 7].
Proof.
  assert (Forall sound [Primitive 32; Primitive 2; Primitive 3; Padding; Primitive 8]) as S1 by (repeat constructor; cbn; lia).
  assert (Forall sound [Composite [Primitive 1]; ArrayUpTo (Primitive 8) 7]) as S2 by (repeat constructor; cbn; lia).
  split; [| split; [| split; [reflexivity | split; [assumption |]]]].
  - apply (proj2 (keeps_iff _ S1)). intros t [<- | [<- | [<- | [<- | [<- | []]]]]]; try (left; eexists; reflexivity).
    right. intros [z | | l] [z' | | l'] Hv Hw; cbn in *; tauto.
  - repeat constructor; cbn; lia.
  - intros K. destruct (proj1 (keeps_iff _ S2) K _ (or_introl eq_refl)) as [[bits C] | C]; [discriminate C |].
    assert (VList [VBits 0] = VList [VBits 1]) as X; [| discriminate X].
    apply C; cbn; split; (lia || exact Logic.I).
Qed.
