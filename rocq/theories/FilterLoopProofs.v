(** Proofs about configureFilters for every length of the array. *)
From Coq Require Import ZArith Bool String List Lia.
From Verif Require Import Outcome ResultModel CanFrameModel SocketCanModel GroupModel GroupProofs OomModel FilterLoopModel.
Import ListNotations.
Open Scope Z_scope.

Definition vmax : Z := 2 ^ 60 - 1.
Lemma vmax_eq : vector_max_size = vmax.
Proof. reflexivity. Qed.

Lemma convert_ends_from : forall fuel fails i num cs acc, Z.of_nat (length acc) <= vmax -> vmax - Z.of_nat (length acc) < Z.of_nat fuel ->
  exists r, (forall m, convert_loop fails (fuel + m) i num cs acc = Some r).
Proof.
  induction fuel as [|k IH]; intros fails i num cs acc L F; [lia|].
  cbn [plus convert_loop]. rewrite vmax_eq.
  destruct (i <? num); [|eexists; reflexivity].
  destruct (nth_error cs (Z.to_nat i)) as [fc|]; [|eexists; reflexivity].
  destruct (Z.eqb_spec (Z.of_nat (length acc)) vmax) as [E|E]; [eexists; reflexivity|].
  destruct (fails (Z.of_nat (length acc))); [eexists; reflexivity|].
  apply IH; rewrite app_length; cbn [length]; lia.
Qed.

Lemma convert_all : forall fuel i cs acc, Z.of_nat (length cs) < 2 ^ 32 -> 0 <= i <= Z.of_nat (length cs) ->
  Z.of_nat (length acc) = i -> Z.of_nat (length cs) - i < Z.of_nat fuel ->
  forall num, 0 <= num -> i <= num ->
  convert_loop (fun _ => false) fuel i num cs acc =
  Some (if num <=? Z.of_nat (length cs) then Ret (Returned (acc ++ map kconv (firstn (Z.to_nat (num - i)) (skipn (Z.to_nat i) cs)))) else UB).
Proof.
  induction fuel as [|k IH]; intros i cs acc C I A F num N IN; [lia|].
  cbn [convert_loop]. rewrite vmax_eq. destruct (Z.ltb_spec i num) as [H|H].
  - destruct (nth_error cs (Z.to_nat i)) as [fc|] eqn:E.
    + assert (Z.to_nat i < length cs)%nat by (apply nth_error_Some; congruence).
      assert (i < vmax) by (change vmax with (2 ^ 60 - 1); lia).
      destruct (Z.eqb_spec (Z.of_nat (length acc)) vmax) as [X|X]; [lia|].
      rewrite Z.mod_small by lia. fold (kconv fc).
      rewrite (IH (i + 1) cs (acc ++ [kconv fc])); try lia; [|rewrite app_length; cbn [length]; lia].
      f_equal. destruct (num <=? Z.of_nat (length cs)); [|reflexivity]. f_equal. f_equal.
      rewrite <- app_assoc. f_equal.
      replace (skipn (Z.to_nat i) cs) with (fc :: skipn (Z.to_nat (i + 1)) cs).
      2:{ replace (Z.to_nat (i + 1)) with (S (Z.to_nat i)) by lia. clear - E. revert cs E. generalize (Z.to_nat i) as m.
          induction m as [|m IHm]; intros [|c cs] E; try discriminate; cbn in *; [congruence|]. now apply IHm. }
      replace (Z.to_nat (num - i)) with (S (Z.to_nat (num - (i + 1)))) by lia. reflexivity.
    + apply nth_error_None in E. destruct (Z.leb_spec num (Z.of_nat (length cs))); [lia|reflexivity].
  - assert (num = i) by lia. subst num. rewrite Z.sub_diag. cbn [Z.to_nat firstn map]. rewrite app_nil_r.
    destruct (Z.leb_spec i (Z.of_nat (length cs))); [reflexivity|lia].
Qed.

(** More elements of the array than the call is told of do not matter. *)
Lemma convert_all_firstn : forall fuel i cs acc num fails, 0 <= num < 2 ^ 32 -> num <= Z.of_nat (length cs) -> 0 <= i ->
  convert_loop fails fuel i num cs acc = convert_loop fails fuel i num (firstn (Z.to_nat num) cs) acc.
Proof.
  induction fuel as [|k IH]; intros i cs acc num fails N L I; [reflexivity|].
  cbn [convert_loop]. destruct (Z.ltb_spec i num) as [H|H]; [|reflexivity].
  assert (E : nth_error (firstn (Z.to_nat num) cs) (Z.to_nat i) = nth_error cs (Z.to_nat i)).
  { assert (B : (Z.to_nat i < Z.to_nat num)%nat) by lia. clear - B. revert cs B. generalize (Z.to_nat num) as p, (Z.to_nat i) as m.
    induction p as [|p IHp]; intros m cs B; [lia|]. destruct cs as [|c cs]; [reflexivity|]. destruct m as [|m]; [reflexivity|].
    cbn. apply IHp. lia. }
  rewrite E. destruct (nth_error cs (Z.to_nat i)) as [fc|]; [|reflexivity].
  destruct (Z.of_nat (length acc) =? vector_max_size); [reflexivity|].
  destruct (fails (Z.of_nat (length acc))); [reflexivity|]. rewrite Z.mod_small by lia. apply IH; lia.
Qed.

(** With 2^32 or more the loop does not end in the ordinary way. *)
Lemma convert_never_returns : forall fuel fails i num cs acc fs, 2 ^ 32 <= num -> 0 <= i < 2 ^ 32 ->
  convert_loop fails fuel i num cs acc <> Some (Ret (Returned fs)).
Proof.
  induction fuel as [|k IH]; intros fails i num cs acc fs N I; [discriminate|].
  cbn [convert_loop]. destruct (Z.ltb_spec i num) as [H|H]; [|lia].
  destruct (nth_error cs (Z.to_nat i)) as [fc|]; [|discriminate].
  destruct (Z.of_nat (length acc) =? vector_max_size); [discriminate|].
  destruct (fails (Z.of_nat (length acc))); [discriminate|]. apply IH; [exact N|]. apply Z.mod_pos_bound. lia.
Qed.

Lemma convert_reads_inside : forall fuel fails i num cs acc, 2 ^ 32 <= Z.of_nat (length cs) -> 0 <= i < 2 ^ 32 ->
  convert_loop fails fuel i num cs acc <> Some UB.
Proof.
  induction fuel as [|k IH]; intros fails i num cs acc N I; [discriminate|].
  cbn [convert_loop]. destruct (i <? num); [|discriminate].
  destruct (nth_error cs (Z.to_nat i)) as [fc|] eqn:E; [|apply nth_error_None in E; lia].
  destruct (Z.of_nat (length acc) =? vector_max_size); [discriminate|].
  destruct (fails (Z.of_nat (length acc))); [discriminate|]. apply IH; [exact N|]. apply Z.mod_pos_bound. lia.
Qed.

Lemma convert_first : forall k fails i num cs acc,
  convert_loop fails (S k) i num cs acc =
      if i <? num
      then match nth_error cs (Z.to_nat i) with
           | None => Some UB
           | Some fc =>
               if Z.of_nat (length acc) =? vector_max_size then Some (Ret (Threw LengthError))
               else if fails (Z.of_nat (length acc)) then Some (Ret (Threw BadAlloc))
               else convert_loop fails k ((i + 1) mod 2 ^ 32) num cs (acc ++ [kconv fc])
           end
      else Some (Ret (Returned acc)).
Proof. reflexivity. Qed.

(** length_error is thrown only when memory never runs out. *)
Lemma convert_length_error : forall fuel fails i num cs acc,
  convert_loop fails fuel i num cs acc = Some (Ret (Threw LengthError)) ->
  forall n, Z.of_nat (length acc) <= n < vmax -> fails n = false.
Proof.
  induction fuel as [|k IH]; intros fails i num cs acc E n N; [discriminate|].
  rewrite convert_first, vmax_eq in E. destruct (i <? num); [|discriminate].
  destruct (nth_error cs (Z.to_nat i)) as [fc|]; [|discriminate].
  destruct (Z.eqb_spec (Z.of_nat (length acc)) vmax) as [X|X]; [lia|].
  destruct (fails (Z.of_nat (length acc))) eqn:FA; [discriminate|].
  destruct (Z.eq_dec n (Z.of_nat (length acc))) as [->|NE]; [exact FA|].
  apply (IH _ _ _ _ _ E). rewrite app_length. cbn [length]. lia.
Qed.

Lemma convert_bad_alloc : forall fuel fails i num cs acc,
  convert_loop fails fuel i num cs acc = Some (Ret (Threw BadAlloc)) ->
  exists n, Z.of_nat (length acc) <= n < Z.of_nat (length acc) + Z.of_nat fuel /\ n <> vmax /\ fails n = true.
Proof.
  induction fuel as [|k IH]; intros fails i num cs acc E; [discriminate|].
  rewrite convert_first, vmax_eq in E. destruct (i <? num); [|discriminate].
  destruct (nth_error cs (Z.to_nat i)) as [fc|]; [|discriminate].
  destruct (Z.eqb_spec (Z.of_nat (length acc)) vmax) as [X|X]; [discriminate|].
  destruct (fails (Z.of_nat (length acc))) eqn:FA; [exists (Z.of_nat (length acc)); split; [lia|auto]|].
  destruct (IH _ _ _ _ _ E) as (n & N & M & T). exists n. rewrite app_length in N. cbn [length] in N. split; [lia|auto].
Qed.
