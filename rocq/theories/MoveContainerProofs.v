(** Proofs about containers that use the pool allocator. *)
From Coq Require Import Bool List Arith Lia.
From Verif Require Import AllocCopyModel MoveContainerModel MoveContainerSpec.
Import ListNotations.

Lemma compiles_iff lib user o : compiles lib user o = true <-> user <> None \/ (lib o = false /\ forall i j, o <> MoveAssign i j).
Proof.
  unfold compiles, needs. destruct user as [eq|].
  - split; [left; discriminate|]. destruct (lib o), o; reflexivity.
  - split.
    + intros C. right. destruct (lib o); [discriminate C|]. split; [reflexivity|]. intros i j ->. discriminate C.
    + intros [N | (L & N)]; [congruence|]. rewrite L. destruct o; try reflexivity. exfalso. eapply N. reflexivity.
Qed.

Lemma run_snoc g user p o : run g user (p ++ [o]) = step g user (run g user p) o.
Proof. unfold run. rewrite fold_left_app. reflexivity. Qed.

(** What holds throughout: containers use pools that getReference answered with, their blocks are from the pool they use, and the blocks returned were returned right. *)
Definition good (g : pool_type) (w : world) : Prop :=
  (forall i c, box w i = Some c -> (exists n, uses c = g n) /\ forall b, In b (blocks c) -> b = uses c) /\
  (forall from to, In (from, to) (returned w) -> from = to).

Lemma set_some b i c k d : set b i c k = Some d -> k = i /\ d = c \/ b k = Some d.
Proof. unfold set. destruct (Nat.eqb_spec k i); [intros [= <-]; auto | auto]. Qed.

Lemma give_back_right c : (forall b, In b (blocks c) -> b = uses c) -> forall from to, In (from, to) (give_back c) -> from = to.
Proof. intros R from to I. apply in_map_iff in I. destruct I as (b & [= <- <-] & I). auto. Qed.

Lemma take_in p n b : In b (take p n) -> b = p.
Proof. apply repeat_spec. Qed.

Lemma good_set g b i c l :
  (forall k d, b k = Some d -> (exists n, uses d = g n) /\ forall x, In x (blocks d) -> x = uses d) ->
  (exists n, uses c = g n) -> (forall x, In x (blocks c) -> x = uses c) ->
  (forall from to, In (from, to) l -> from = to) ->
  forall n m tk, good g (World (set b i c) n m l tk).
Proof.
  intros B U R L n m tk. split; [|exact L]. cbn. intros k d E. apply set_some in E. destruct E as [(-> & ->) | E]; [split; assumption | exact (B _ _ E)].
Qed.

Lemma app_right c (w : world) :
  (forall b, In b (blocks c) -> b = uses c) -> (forall from to, In (from, to) (returned w) -> from = to) ->
  forall from to, In (from, to) (give_back c ++ returned w) -> from = to.
Proof. intros R L from to I. apply in_app_or in I. destruct I as [I | I]; [exact (give_back_right c R from to I) | exact (L _ _ I)]. Qed.

(** Operations keep it, if those that hand over blocks do so between containers of one pool. *)
Lemma step_good g user w o :
  good g w ->
  (forall i j eq, o = MoveAssign i j -> user = Some eq -> sound g eq) ->
  (forall i j, o = Swap i j -> forall m n, g m = g n) ->
  good g (step g user w o).
Proof.
  intros (B & L) M W. destruct o as [|i|j|j|i j|i j|i j|i]; cbn [step].
  - apply good_set; [exact B | exists (calls w); reflexivity | intros x [] | exact L].
  - destruct (box w i) as [c|] eqn:E; [|now split]. destruct (B _ _ E) as (U & R). apply good_set; [exact B | exact U | | exact L].
    cbn. intros x [<- | I]; auto.
  - destruct (box w j) as [d|] eqn:E; [|now split]. apply good_set; [exact B | exists (calls w); reflexivity | intros x I; now apply take_in in I | exact L].
  - destruct (box w j) as [d|] eqn:E; [|now split]. destruct (B _ _ E) as (U & R).
    destruct (good_set g (box w) j (Container (uses d) []) (returned w) B U ltac:(intros x []) L (number w) (calls w) (taken w)) as (B' & _).
    apply good_set; [exact B' | exact U | exact R | exact L].
  - destruct (box w i) as [c|] eqn:Ei; [|now split]. destruct (box w j) as [d|] eqn:Ej; [|now split]. destruct (i =? j); [now split|].
    destruct (B _ _ Ei) as (U & R). apply good_set; [exact B | exact U | intros x I; now apply take_in in I | now apply app_right].
  - destruct (box w i) as [c|] eqn:Ei; [|now split]. destruct (box w j) as [d|] eqn:Ej; [|now split]. destruct user as [eq|]; [|now split].
    destruct (i =? j); [now split|]. destruct (B _ _ Ei) as (U & R), (B _ _ Ej) as (U' & R'). destruct (eq (uses c) (uses d)) eqn:Q.
    + assert (P : uses c = uses d).
      { destruct U as (m & U), U' as (n & U'). rewrite U, U' in *. exact (M i j eq eq_refl eq_refl m n Q). }
      destruct (good_set g (box w) i (Container (uses c) (blocks d)) (give_back c ++ returned w) B U
                  ltac:(cbn; intros x I; rewrite P; auto) (app_right c w R L) (number w) (calls w) (taken w)) as (B' & L').
      apply good_set; [exact B' | exact U' | intros x [] | exact L'].
    + apply good_set; [exact B | exact U | intros x I; now apply take_in in I | now apply app_right].
  - destruct (box w i) as [c|] eqn:Ei; [|now split]. destruct (box w j) as [d|] eqn:Ej; [|now split]. destruct (i =? j); [now split|].
    destruct (B _ _ Ei) as (U & R), (B _ _ Ej) as (U' & R').
    assert (P : uses c = uses d) by (destruct U as (m & ->), U' as (n & ->); exact (W i j eq_refl m n)).
    destruct (good_set g (box w) i (Container (uses c) (blocks d)) (returned w) B U
                ltac:(cbn; intros x I; rewrite P; auto) L (number w) (calls w) (taken w)) as (B' & L').
    apply good_set; [exact B' | exact U' | cbn; intros x I; rewrite <- P; auto | exact L'].
  - destruct (box w i) as [c|] eqn:E; [|now split]. destruct (B _ _ E) as (U & R). apply good_set; [exact B | exact U | intros x [] | now apply app_right].
Qed.

Lemma run_good g user p :
  (forall i j eq, In (MoveAssign i j) p -> user = Some eq -> sound g eq) ->
  (forall i j, In (Swap i j) p -> forall m n, g m = g n) ->
  good g (run g user p).
Proof.
  induction p as [|o p IH] using rev_ind; intros M W.
  - split; cbn; [discriminate | intros ? ? []].
  - rewrite run_snoc. apply step_good.
    + apply IH; intros i j *; [intros I; apply (M i j); apply in_or_app; now left | intros I; apply (W i j); apply in_or_app; now left].
    + intros i j eq -> Q. apply (M i j eq); [apply in_or_app; right; now left | exact Q].
    + intros i j ->. apply (W i j). apply in_or_app. right. now left.
Qed.

Lemma run_right g user p :
  (forall i j eq, In (MoveAssign i j) p -> user = Some eq -> sound g eq) ->
  (forall i j, In (Swap i j) p -> forall m n, g m = g n) ->
  returned_right g user p.
Proof. intros M W. exact (proj2 (run_good g user p M W)). Qed.

(** [n] containers that are made after another use the first [n] answers of getReference. *)
Lemma run_makes g user n :
  let w := run g user (repeat Make n) in
  number w = n /\ calls w = n /\ returned w = [] /\ forall k, k < n -> box w k = Some (Container (g k) []).
Proof.
  induction n as [|n IH]; [cbn; repeat split; lia|].
  cbv zeta in *. replace (repeat Make (S n)) with (repeat Make n ++ [Make]) by (now rewrite <- repeat_cons).
  rewrite run_snoc. destruct IH as (N & C & R & B). cbn [step]. unfold add, initialized. cbn. rewrite N, C. repeat split; [exact R|].
  intros k L. unfold set. destruct (Nat.eqb_spec k n) as [-> | D]; [reflexivity|]. apply B. lia.
Qed.

(** Two containers with the [m]-th and [n]-th answer; the second gets an element, [o] hands it to the first, which is emptied. *)
Definition scenario (m n : nat) (o : operation) : list operation := repeat Make (S (m + n)) ++ [Insert n; o; Clear m].

Lemma scenario_run g user m n o :
  run g user (scenario m n o) = step g user (step g user (step g user (run g user (repeat Make (S (m + n)))) (Insert n)) o) (Clear m).
Proof. unfold scenario, run. rewrite fold_left_app. reflexivity. Qed.

Lemma eqb_false m n : m <> n -> (m =? n) = false.
Proof. intros N. now apply Nat.eqb_neq. Qed.

Lemma scenario_move g eq m n : m <> n -> eq (g m) (g n) = true -> In (g n, g m) (returned (run g (Some eq) (scenario m n (MoveAssign m n)))).
Proof.
  intros N Q. rewrite scenario_run. destruct (run_makes g (Some eq) (S (m + n))) as (_ & _ & R & B).
  set (w := run g (Some eq) (repeat Make (S (m + n)))) in *. clearbody w.
  cbn [step]. rewrite (B n) by lia. cbn [uses blocks box number calls returned]. unfold MoveContainerModel.set.
  rewrite (eqb_false m n N), (B m), Nat.eqb_refl by lia. cbn [uses blocks]. rewrite Q. cbn [box].
  rewrite (eqb_false m n N), Nat.eqb_refl. cbn. now left.
Qed.

Lemma scenario_swap g user m n : m <> n -> In (g n, g m) (returned (run g user (scenario m n (Swap m n)))).
Proof.
  intros N. rewrite scenario_run. destruct (run_makes g user (S (m + n))) as (_ & _ & R & B).
  set (w := run g user (repeat Make (S (m + n)))) in *. clearbody w.
  cbn [step]. rewrite (B n) by lia. cbn [uses blocks box number calls returned]. unfold MoveContainerModel.set.
  rewrite (eqb_false m n N), (B m), Nat.eqb_refl by lia. cbn [uses blocks box].
  rewrite (eqb_false m n N), Nat.eqb_refl. cbn. now left.
Qed.

Lemma in_scenario m n o x : In x (scenario m n o) -> x = Make \/ x = Insert n \/ x = o \/ x = Clear m.
Proof.
  unfold scenario. intros I. apply in_app_or in I. destruct I as [I | I]; [apply repeat_spec in I; auto|].
  cbn in I. destruct I as [<- | [<- | [<- | []]]]; auto.
Qed.

Lemma without_swap_iff g eq : (forall p, no_swap p -> returned_right g (Some eq) p) <-> sound g eq.
Proof.
  split.
  - intros A m n Q. destruct (Nat.eq_dec m n) as [-> | N]; [reflexivity|]. symmetry.
    apply (A (scenario m n (MoveAssign m n))); [|now apply scenario_move].
    intros i j I. apply in_scenario in I. intuition discriminate.
  - intros S p NS. apply run_right; [intros i j eq' _ [= <-]; exact S | intros i j I; exfalso; exact (NS i j I)].
Qed.

Lemma as_it_is g p : no_swap p -> returned_right g None p.
Proof. intros NS. apply run_right; [discriminate | intros i j I; exfalso; exact (NS i j I)]. Qed.

Lemma every_program_iff g user : (forall lib p, compiled lib user p -> returned_right g user p) <-> forall m n, g m = g n.
Proof.
  split.
  - intros A m n. destruct (Nat.eq_dec m n) as [-> | N]; [reflexivity|]. symmetry.
    apply (A (fun _ => false) (scenario m n (Swap m n))); [|now apply scenario_swap].
    intros o I. apply compiles_iff. right. split; [reflexivity|]. intros i j ->. apply in_scenario in I. intuition discriminate.
  - intros E lib p _. apply run_right; [intros i j eq _ _ m n _; apply E | intros i j _; exact E].
Qed.

Lemma set_same b i c : set b i c i = Some c.
Proof. unfold set. now rewrite Nat.eqb_refl. Qed.
Lemma set_other b i c k : k <> i -> set b i c k = b k.
Proof. intros N. unfold set. now rewrite (eqb_false k i N). Qed.

Lemma take_length p n : length (take p n) = n.
Proof. apply repeat_length. Qed.

Lemma sizes g user w i j c d :
  box w i = Some c -> box w j = Some d ->
  size (step g user w (CopyAssign i j)) i = size w j /\
  (user <> None -> size (step g user w (MoveAssign i j)) i = size w j) /\
  size (step g user w (Swap i j)) i = size w j /\ size (step g user w (Swap i j)) j = size w i /\
  size (step g user w (CopyConstruct j)) (number w) = size w j /\
  size (step g user w (MoveConstruct j)) (number w) = size w j.
Proof.
  intros Ei Ej. cbn [step]. rewrite Ei, Ej. destruct (Nat.eqb_spec i j) as [-> | N].
  - assert (c = d) as <- by congruence. repeat split; unfold size; cbn [box add]; rewrite ?set_same; cbn; rewrite ?Ei, ?Ej; cbn; rewrite ?take_length; try reflexivity.
    intros _. destruct user; cbn; now rewrite Ej.
  - repeat split; unfold size; cbn [box add].
    + rewrite set_same, Ej. cbn. now rewrite take_length.
    + intros U. destruct user as [eq|]; [|congruence]. destruct (eq (uses c) (uses d)); cbn [box].
      * rewrite (set_other _ j _ i N), set_same, Ej. reflexivity.
      * rewrite set_same, Ej. cbn. now rewrite take_length.
    + rewrite (set_other _ j _ i N), set_same, Ej. reflexivity.
    + rewrite set_same, Ei. reflexivity.
    + rewrite set_same, Ej. cbn. now rewrite take_length.
    + rewrite set_same, Ej. reflexivity.
Qed.

(** The blocks of a pool in the first [n] containers. *)
Definition held (pool : nat) (b : nat -> option container) (n : nat) : nat :=
  list_sum (map (fun i => match b i with Some c => count_occ Nat.eq_dec (blocks c) pool | None => 0 end) (seq 0 n)).

Lemma held_S pool b n :
  held pool b (S n) = held pool b n + match b n with Some c => count_occ Nat.eq_dec (blocks c) pool | None => 0 end.
Proof. unfold held. rewrite seq_S, map_app, list_sum_app. cbn. lia. Qed.

Lemma held_beyond pool b i c n : n <= i -> held pool (set b i c) n = held pool b n.
Proof.
  induction n as [|n IH]; intros L; [reflexivity|]. rewrite !held_S, IH by lia. rewrite set_other by lia. reflexivity.
Qed.

Lemma held_set pool b i c old n :
  i < n -> b i = Some old ->
  held pool (set b i c) n + count_occ Nat.eq_dec (blocks old) pool = held pool b n + count_occ Nat.eq_dec (blocks c) pool.
Proof.
  induction n as [|n IH]; intros L E; [lia|]. rewrite !held_S. destruct (Nat.eq_dec i n) as [<- | N].
  - rewrite set_same, E, held_beyond by lia. lia.
  - rewrite set_other by lia. specialize (IH ltac:(lia) E). lia.
Qed.

Lemma held_add pool b c n : held pool (set b n c) (S n) = held pool b n + count_occ Nat.eq_dec (blocks c) pool.
Proof. now rewrite held_S, set_same, held_beyond by lia. Qed.

Lemma give_back_from c : map fst (give_back c) = blocks c.
Proof. unfold give_back. rewrite map_map. cbn. apply map_id. Qed.

(** The containers are those numbered so far. *)
Definition numbered (w : world) : Prop := forall i c, box w i = Some c -> i < number w.

Lemma numbered_set b i c old n (N : forall k d, b k = Some d -> k < n) : b i = Some old -> forall k d, set b i c k = Some d -> k < n.
Proof. intros E k d S. apply set_some in S. destruct S as [(-> & _) | S]; [exact (N _ _ E) | exact (N _ _ S)]. Qed.

Lemma numbered_add b c n (N : forall k d, b k = Some d -> k < n) : forall k d, set b n c k = Some d -> k < S n.
Proof. intros k d S. apply set_some in S. destruct S as [(-> & _) | S]; [lia | specialize (N _ _ S); lia]. Qed.

Lemma step_accounted g user w o : numbered w -> accounted w -> numbered (step g user w o) /\ accounted (step g user w o).
Proof.
  unfold numbered, accounted, in_containers. intros N A. destruct o as [|i|j|j|i j|i j|i j|i]; cbn [step].
  - split; [exact (numbered_add _ _ _ N)|]. intros p. cbn [add box number returned taken app]. fold (held p (set (box w) (number w) (Container (g (calls w)) [])) (S (number w))).
    rewrite A. fold (held p (box w) (number w)). change (fst (initialized g Direct Nothing 0 (calls w))) with (g (calls w)).
    fold (held p (set (box w) (number w) (Container (g (calls w)) [])) (S (number w))). rewrite held_add. cbn. lia.
  - destruct (box w i) as [c|] eqn:E; [|now split]. split; [exact (numbered_set _ _ _ _ _ N E)|]. intros p. cbn [box number returned taken].
    fold (held p (set (box w) i (Container (uses c) (take (uses c) 1 ++ blocks c))) (number w)).
    pose proof (held_set p (box w) i (Container (uses c) (take (uses c) 1 ++ blocks c)) c (number w) (N _ _ E) E) as H. cbn [blocks] in H.
    rewrite !count_occ_app in *. specialize (A p). fold (held p (box w) (number w)) in A. lia.
  - destruct (box w j) as [d|] eqn:E; [|now split]. split; [exact (numbered_add _ _ _ N)|]. intros p. cbn [add box number returned taken].
    match goal with |- context [set (box w) (number w) ?c] => fold (held p (set (box w) (number w) c) (S (number w))); rewrite (held_add p (box w) c) end.
    cbn [blocks]. rewrite count_occ_app. specialize (A p). fold (held p (box w) (number w)) in A. lia.
  - destruct (box w j) as [d|] eqn:E; [|now split]. split; [exact (numbered_add _ _ _ (numbered_set _ _ _ _ _ N E))|]. intros p. cbn [add box number returned taken app].
    match goal with |- context [set (set (box w) j ?e) (number w) ?c] =>
      fold (held p (set (set (box w) j e) (number w) c) (S (number w))); rewrite (held_add p (set (box w) j e) c);
      pose proof (held_set p (box w) j e d (number w) (N _ _ E) E) as H end.
    cbn [blocks count_occ] in *. specialize (A p). fold (held p (box w) (number w)) in A. lia.
  - destruct (box w i) as [c|] eqn:Ei; [|now split]. destruct (box w j) as [d|] eqn:Ej; [|now split]. destruct (i =? j); [now split|].
    split; [exact (numbered_set _ _ _ _ _ N Ei)|]. intros p. cbn [box number returned taken].
    match goal with |- context [set (box w) i ?e] => fold (held p (set (box w) i e) (number w)); pose proof (held_set p (box w) i e c (number w) (N _ _ Ei) Ei) as H end.
    cbn [blocks] in H. rewrite map_app, !count_occ_app, give_back_from. specialize (A p). fold (held p (box w) (number w)) in A. lia.
  - destruct (box w i) as [c|] eqn:Ei; [|now split]. destruct (box w j) as [d|] eqn:Ej; [|now split]. destruct user as [eq|]; [|now split].
    destruct (Nat.eqb_spec i j) as [-> | D]; [now split|]. destruct (eq (uses c) (uses d)).
    + assert (Ej' : forall e, set (box w) i e j = Some d) by (intros e; rewrite set_other by congruence; exact Ej).
      split; [exact (numbered_set _ _ _ _ _ (numbered_set _ _ _ _ _ N Ei) (Ej' _))|]. intros p. cbn [box number returned taken].
      match goal with |- context [set (set (box w) i ?e) j ?f] =>
        fold (held p (set (set (box w) i e) j f) (number w)); pose proof (held_set p (box w) i e c (number w) (N _ _ Ei) Ei) as H;
        pose proof (held_set p (set (box w) i e) j f d (number w) (N _ _ Ej) (Ej' _)) as H' end.
      cbn [blocks count_occ] in *. rewrite map_app, count_occ_app, give_back_from. specialize (A p). fold (held p (box w) (number w)) in A. lia.
    + split; [exact (numbered_set _ _ _ _ _ N Ei)|]. intros p. cbn [box number returned taken].
      match goal with |- context [set (box w) i ?e] => fold (held p (set (box w) i e) (number w)); pose proof (held_set p (box w) i e c (number w) (N _ _ Ei) Ei) as H end.
      cbn [blocks] in H. rewrite map_app, !count_occ_app, give_back_from. specialize (A p). fold (held p (box w) (number w)) in A. lia.
  - destruct (box w i) as [c|] eqn:Ei; [|now split]. destruct (box w j) as [d|] eqn:Ej; [|now split].
    destruct (Nat.eqb_spec i j) as [-> | D]; [now split|].
    assert (Ej' : forall e, set (box w) i e j = Some d) by (intros e; rewrite set_other by congruence; exact Ej).
    split; [exact (numbered_set _ _ _ _ _ (numbered_set _ _ _ _ _ N Ei) (Ej' _))|]. intros p. cbn [box number returned taken].
    match goal with |- context [set (set (box w) i ?e) j ?f] =>
      fold (held p (set (set (box w) i e) j f) (number w)); pose proof (held_set p (box w) i e c (number w) (N _ _ Ei) Ei) as H;
      pose proof (held_set p (set (box w) i e) j f d (number w) (N _ _ Ej) (Ej' _)) as H' end.
    cbn [blocks] in *. specialize (A p). fold (held p (box w) (number w)) in A. lia.
  - destruct (box w i) as [c|] eqn:Ei; [|now split]. split; [exact (numbered_set _ _ _ _ _ N Ei)|]. intros p. cbn [box number returned taken].
    match goal with |- context [set (box w) i ?e] => fold (held p (set (box w) i e) (number w)); pose proof (held_set p (box w) i e c (number w) (N _ _ Ei) Ei) as H end.
    cbn [blocks count_occ] in H. rewrite map_app, count_occ_app, give_back_from. specialize (A p). fold (held p (box w) (number w)) in A. lia.
Qed.

Lemma run_accounted g user p : numbered (run g user p) /\ accounted (run g user p).
Proof.
  induction p as [|o p (N & A)] using rev_ind; [split; [discriminate | intros q; reflexivity]|]. rewrite run_snoc. now apply step_accounted.
Qed.

Lemma step_clear_number g user w i : number (step g user w (Clear i)) = number w.
Proof. cbn [step]. now destruct (box w i). Qed.

Lemma clears g user p k :
  let w := run g user (p ++ map Clear (seq 0 k)) in
  number w = number (run g user p) /\ forall i c, i < k -> box w i = Some c -> blocks c = [].
Proof.
  cbv zeta. induction k as [|k (IN & IB)]; [rewrite app_nil_r; split; [reflexivity | lia]|].
  rewrite seq_S, map_app, app_assoc. cbn [map Nat.add]. rewrite run_snoc. split; [now rewrite step_clear_number|].
  set (w := run g user (p ++ map Clear (seq 0 k))) in *. clearbody w. intros i c L. cbn [step].
  destruct (box w k) as [d|] eqn:E; cbn [box].
  - destruct (Nat.eq_dec i k) as [-> | N].
    + rewrite set_same. now intros [= <-].
    + rewrite set_other by exact N. apply IB. lia.
  - intros B. destruct (Nat.eq_dec i k) as [-> | N]; [congruence|]. apply (IB i c); [lia | exact B].
Qed.

Lemma all_returned g user p pool :
  let w := run g user (p ++ map Clear (seq 0 (number (run g user p)))) in
  count_occ Nat.eq_dec (taken w) pool = count_occ Nat.eq_dec (map fst (returned w)) pool.
Proof.
  cbv zeta. destruct (clears g user p (number (run g user p))) as (N & B). destruct (run_accounted g user (p ++ map Clear (seq 0 (number (run g user p))))) as (_ & A).
  rewrite (A pool). unfold in_containers. rewrite N.
  set (w := run g user (p ++ map Clear (seq 0 (number (run g user p))))) in *. clearbody w. generalize dependent (number (run g user p)). intros n _ B.
  fold (held pool (box w) n).
  enough (held pool (box w) n = 0) by lia. induction n as [|n IH]; [reflexivity|]. rewrite held_S, IH by (intros i c L; apply B; lia).
  destruct (box w n) as [c|] eqn:E; [|reflexivity]. now rewrite (B n c) by (lia || exact E).
Qed.
