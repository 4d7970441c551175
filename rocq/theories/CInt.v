(** C++ integer semantics used by the models: two's complement types of a given width in bits, integral promotion
    and the undefined behaviour of signed overflow. Values are unbounded integers [Z]. *)
From Coq Require Import ZArith Bool Lia.
From Verif Require Import Outcome.
Open Scope Z_scope.

(** What the C++ standard leaves to the platform and the code depends on.
    [int_width]: width of [int], to which narrower types are promoted.
    [abs_of_min w]: what [std::abs] yields for the most negative value of a signed type of width [w] (int or wider):
    [None] when the behaviour is undefined (what the standard says), [Some v] for a platform that happens to produce
    [v]. What util/math.hpp lines 35-245 depend on. *)
Record platform : Type := Platform {
  int_width : Z;
  abs_of_min : Z -> option Z
}.

(** std::numeric_limits<T>::min()/max() for signed T of width [w]. Used at math.hpp lines 56-58 and 83-91. *)
Definition smin (w : Z) : Z := - 2 ^ (w - 1).
(** Used at math.hpp lines 40-42 and 134. *)
Definition smax (w : Z) : Z := 2 ^ (w - 1) - 1.
(** std::numeric_limits<U>::max() for unsigned U of width [w]; the minimum is 0. Used at math.hpp lines 170-171. *)
Definition umax (w : Z) : Z := 2 ^ w - 1.

(** The values of the SignedType of math.hpp lines 35-147. *)
Definition sin_range (w x : Z) : Prop := smin w <= x <= smax w.
(** The values of the UnsignedType of math.hpp lines 161-193. *)
Definition uin_range (w x : Z) : Prop := 0 <= x <= umax w.

(** As [sin_range], computed (math.hpp lines 35-147). *)
Definition sin_rangeb (w x : Z) : bool := (smin w <=? x) && (x <=? smax w).

(** Platforms the theorems range over: C++ requires at least 16-bit int. For math.hpp lines 35-245. *)
Definition wf_platform (P : platform) : Prop :=
  16 <= int_width P /\
  forall w v, abs_of_min P w = Some v -> sin_range w v.

(** The type in which arithmetic on a signed type of width [w] is carried out after integral promotion.
    The operators of math.hpp lines 40-42, 56-58, 93 and 136. *)
Definition promoted (P : platform) (w : Z) : Z := Z.max (int_width P) w.

(** Result [x] of a signed arithmetic operator evaluated in the promoted type: undefined if it overflows.
    The operators of math.hpp lines 40-42, 56-58, 93 and 136. *)
Definition sarith (P : platform) (w x : Z) : outcome Z :=
  if sin_rangeb (promoted P w) x then Ret x else UB.

(** static_cast to a signed type of width [w] (modular, as all supported compilers define it).
    As in math.hpp lines 42, 58, 93, 101, 136 and 144. *)
Definition scast (w x : Z) : Z := (x + 2 ^ (w - 1)) mod 2 ^ w - 2 ^ (w - 1).

(** static_cast to an unsigned type of width [w]. As in math.hpp lines 170-172, 192, 217-218 and 243-244. *)
Definition ucast (w x : Z) : Z := x mod 2 ^ w.

(** Result [x] of an unsigned arithmetic operator: types narrower than int are promoted to (signed) int, where
    overflow is undefined; others wrap. The operators of math.hpp lines 170-172 and 192. *)
Definition uarith (P : platform) (w x : Z) : outcome Z :=
  if w <? int_width P
  then (if sin_rangeb (int_width P) x then Ret x else UB)
  else Ret (x mod 2 ^ w).

(** std::abs applied to a value of the promoted signed type. Used at math.hpp line 56. *)
Definition cabs (P : platform) (w x : Z) : outcome Z :=
  if x =? smin (promoted P w)
  then match abs_of_min P (promoted P w) with
       | Some v => Ret v
       | None => UB
       end
  else Ret (Z.abs x).

(** * Facts *)

Lemma pow_split : forall w, 1 <= w -> 2 ^ w = 2 * 2 ^ (w - 1).
Proof. intros w H. rewrite <- Z.pow_succ_r by lia. f_equal. lia. Qed.

Lemma pow_pos' : forall w, 0 <= w -> 0 < 2 ^ w.
Proof. intros. apply Z.pow_pos_nonneg; lia. Qed.

Lemma sin_rangeb_spec : forall w x, sin_rangeb w x = true <-> sin_range w x.
Proof. intros. unfold sin_rangeb, sin_range. rewrite andb_true_iff, !Z.leb_le. tauto. Qed.

Lemma sin_range_mono : forall w w' x, 1 <= w -> w <= w' -> sin_range w x -> sin_range w' x.
Proof.
  unfold sin_range, smin, smax; intros w w' x Hw Hle H.
  assert (2 ^ (w - 1) <= 2 ^ (w' - 1)) by (apply Z.pow_le_mono_r; lia). lia.
Qed.

Lemma scast_id : forall w x, 1 <= w -> sin_range w x -> scast w x = x.
Proof.
  unfold scast, sin_range, smin, smax; intros w x Hw H.
  rewrite (pow_split w) by lia.
  rewrite Z.mod_small by lia. lia.
Qed.

Lemma scast_range : forall w x, 1 <= w -> sin_range w (scast w x).
Proof.
  unfold scast, sin_range, smin, smax; intros w x Hw.
  rewrite (pow_split w) by lia.
  assert (0 < 2 ^ (w - 1)) by (apply pow_pos'; lia).
  pose proof (Z.mod_pos_bound (x + 2 ^ (w - 1)) (2 * 2 ^ (w - 1))). lia.
Qed.

Lemma ucast_id : forall w x, uin_range w x -> ucast w x = x.
Proof. unfold ucast, uin_range, umax; intros. apply Z.mod_small. lia. Qed.

Lemma ucast_range : forall w x, 0 <= w -> uin_range w (ucast w x).
Proof.
  unfold ucast, uin_range, umax; intros. pose proof (pow_pos' w H).
  pose proof (Z.mod_pos_bound x (2 ^ w)). lia.
Qed.

Lemma sarith_ret : forall P w x, sin_range (promoted P w) x -> sarith P w x = Ret x.
Proof. intros. unfold sarith. apply sin_rangeb_spec in H. now rewrite H. Qed.

Lemma sarith_ret' : forall P w x, 1 <= w -> sin_range w x -> sarith P w x = Ret x.
Proof. intros. apply sarith_ret. eapply sin_range_mono; eauto. unfold promoted. lia. Qed.

Lemma promoted_wide : forall P w, int_width P <= w -> promoted P w = w.
Proof. unfold promoted; intros; lia. Qed.

Lemma promoted_narrow : forall P w, w < int_width P -> promoted P w = int_width P.
Proof. unfold promoted; intros; lia. Qed.
