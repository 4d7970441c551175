(** C78: generated constants. *)
From Coq Require Import ZArith Bool List Lia.
From Verif Require Import TemplateModel TemplateSpec TemplateProofs.
Open Scope Z_scope.

(** C78. Full statement: for every rational number in lowest terms, [initializer num den = Some v] with
    [is_rational v num den]. *)
Theorem C78_constants_refuted : exists num den, 0 < den /\ Z.gcd num den = 1 /\
  exists v, initializer num den = Some v /\ ~ is_rational v num den.
Proof. exists 1, 2. split; [lia|]. split; [reflexivity|]. exists 0. split; [reflexivity|]. unfold is_rational. lia. Qed.
Print Assumptions C78_constants_refuted.
(** Exactly: the constant does not compile if either number needs 64 bits; otherwise it is the rational number truncated
    towards zero, which is that number only for integers. *)
Theorem C78_constants_truncate_partial : forall num den, 0 < den -> Z.gcd num den = 1 ->
  (initializer num den = None <-> 2 ^ 63 <= Z.abs num \/ 2 ^ 63 <= den) /\
  (forall v, initializer num den = Some v ->
     (is_rational v num den <-> den = 1) /\ Z.abs v * den <= Z.abs num < (Z.abs v + 1) * den /\ 0 <= v * num).
Proof. exact initializer_truncates. Qed.
Print Assumptions C78_constants_truncate_partial.
Example C78_truncate_case : Z.gcd (-314159) 100000 = 1 /\ initializer (-314159) 100000 = Some (-3).
Proof. split; reflexivity. Qed.

(** Integer constants, which DSDL keeps within their type, keep their value when they are less than 2^63 in magnitude, and do
    not compile otherwise. *)
Theorem C78_integer_constants : forall t num, holds t num ->
  (Z.abs num < 2 ^ 63 -> constant t num 1 = Some num) /\ (2 ^ 63 <= Z.abs num -> constant t num 1 = None).
Proof. intros t num H. split; [now apply constant_integers|apply constant_ill_formed]. Qed.
Print Assumptions C78_integer_constants.
Example C78_integer_case : holds (CSigned 8) (-128) /\ constant (CSigned 8) (-128) 1 = Some (-128) /\
  holds (CSigned 64) (- 2 ^ 63) /\ constant (CSigned 64) (- 2 ^ 63) 1 = None.
Proof. repeat split; discriminate. Qed.
