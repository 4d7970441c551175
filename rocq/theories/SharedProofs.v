(** Proofs about a googletest that several build directories share. *)
From Coq Require Import Bool List Arith Lia.
From Verif Require Import SharedModel SharedSpec.
Import ListNotations.

Lemma history_snoc l h a : history l (h ++ [a]) = fst (perform l (history l h) a).
Proof. unfold history. now rewrite fold_left_app. Qed.

Lemma last_configured_snoc b h a :
  last_configured b (h ++ [a]) =
  match a with Configure b' k own => if b' =? b then Some (k, own) else last_configured b h | Make _ _ => last_configured b h end.
Proof.
  induction h as [|a' h IH]; cbn [app last_configured].
  - destruct a; reflexivity.
  - rewrite IH. destruct a as [b' k own |]; [destruct (b' =? b); reflexivity | reflexivity].
Qed.

Lemma last_shared_snoc h a :
  last_shared (h ++ [a]) = match a with Configure _ k false => Some k | _ => last_shared h end.
Proof.
  induction h as [|a' h IH]; cbn [app last_shared].
  - destruct a as [? ? []|]; reflexivity.
  - rewrite IH. destruct a as [? ? []|]; reflexivity.
Qed.

(** Times are in the past, objects newer than the rules were made by them, and an archive is made of the objects that are not newer. *)
Record sound (l : list nat) (s : shared) : Prop := {
  s_rules : forall k t, rules s = Some (k, t) -> t < now s;
  s_object : forall i k t, object s i = Some (k, t) -> t < now s;
  s_made : forall k t i k' t', rules s = Some (k, t) -> object s i = Some (k', t') -> t < t' -> k' = k;
  s_archive : forall m t, archive s = Some (m, t) ->
    t < now s /\ ((forall i, In i l -> exists k t', object s i = Some (k, t') /\ t' <= t) -> m = members l s)
}.

Lemma members_ext l s s' : (forall i, In i l -> object s i = object s' i) -> members l s = members l s'.
Proof.
  unfold members. induction l as [|i l IH]; intros E; [reflexivity|]. cbn. rewrite (E i) by now left.
  rewrite IH; [reflexivity|]. intros j J. apply E. now right.
Qed.

Lemma add_sound l k s : sound l s -> sound l (add_googletest k s).
Proof.
  intros S. unfold add_googletest.
  assert (N : sound l (Shared (Datatypes.S (now s)) (Some (k, now s)) (object s) (archive s))).
  { destruct S as [R O M A]. split; cbn.
    - intros k' t E. injection E as <- <-. lia.
    - intros i k' t E. apply O in E. lia.
    - intros k' t i k2 t' E E' L. injection E as <- <-. apply O in E'. lia.
    - intros m t E. destruct (A m t E) as (L & X). split; [lia | exact X]. }
  destruct (rules s) as [[k' t]|]; [destruct (k' =? k); [exact S | exact N] | exact N].
Qed.

Lemma compile_sound l k t : forall l' n s, rules s = Some (k, t) -> sound l s ->
  sound l (fst (compile k t l' n s)) /\ rules (fst (compile k t l' n s)) = Some (k, t).
Proof.
  induction l' as [|i l' IH]; intros n s R S; cbn [compile fst]; [tauto|].
  destruct (outdated t (object s i)) eqn:Od; [|now apply IH].
  assert (N : sound l (Shared (Datatypes.S (now s)) (rules s) (fun j => if j =? i then Some (k, now s) else object s j) (archive s))).
  { destruct S as [Ru O M A]. split; cbn.
    - intros k' t' E. apply Ru in E. lia.
    - intros j k' t' E. destruct (j =? i); [injection E as <- <-; lia | apply O in E; lia].
    - intros k' t' j k2 t2 E E' L. destruct (j =? i).
      + injection E' as <- <-. rewrite R in E. now injection E.
      + exact (M _ _ _ _ _ E E' L).
    - intros m t' E. destruct (A m t' E) as (L & X). split; [lia|]. intros Y.
      assert (Same : forall j, In j l -> j <> i).
      { intros j J ->. destruct (Y i J) as (k2 & t2 & E2 & L2). rewrite Nat.eqb_refl in E2. injection E2 as <- <-. lia. }
      rewrite X.
      + apply members_ext. intros j J. cbn. pose proof (Same j J) as D. apply Nat.eqb_neq in D. now rewrite D.
      + intros j J. pose proof (Same j J) as D. apply Nat.eqb_neq in D. destruct (Y j J) as (k2 & t2 & E2 & L2). rewrite D in E2. now exists k2, t2. }
  destruct n as [[|n]|]; [cbn; tauto | apply IH; [exact R | exact N] | apply IH; [exact R | exact N]].
Qed.

Lemma compile_done k t : forall l' n s, rules s = Some (k, t) -> t < now s -> snd (compile k t l' n s) = true ->
  (forall i, In i l' -> outdated t (object (fst (compile k t l' n s)) i) = false) /\
  (forall i, outdated t (object s i) = false -> outdated t (object (fst (compile k t l' n s)) i) = false).
Proof.
  induction l' as [|i l' IH]; intros n s R L D; cbn [compile] in *.
  - split; [intros ? [] | auto].
  - destruct (outdated t (object s i)) eqn:Od.
    + assert (D' : snd (compile k t l' (option_map pred n)
                   (Shared (S (now s)) (rules s) (fun j => if j =? i then Some (k, now s) else object s j) (archive s))) = true)
        by (destruct n as [[|n]|]; [discriminate | exact D | exact D]).
      assert (E : forall X, match n with Some 0 => (s, false) | _ => X end = X)
        by (intros X; destruct n as [[|n]|]; [discriminate D | reflexivity | reflexivity]).
      rewrite E. destruct (IH (option_map pred n) (Shared (S (now s)) (rules s) (fun j => if j =? i then Some (k, now s) else object s j) (archive s))
                  R (Nat.lt_lt_succ_r _ _ L) D') as (A & B). cbn [object] in B.
      assert (Bi : outdated t (object (fst (compile k t l' (option_map pred n)
                   (Shared (S (now s)) (rules s) (fun j => if j =? i then Some (k, now s) else object s j) (archive s)))) i) = false).
      { apply B. cbn. rewrite Nat.eqb_refl. cbn. apply Nat.leb_gt. exact L. }
      split.
      * intros j [<- | J]; [exact Bi | apply A; exact J].
      * intros j J. destruct (j =? i) eqn:Ej; [apply Nat.eqb_eq in Ej; subst; exact Bi|]. apply B. cbn. rewrite Ej. exact J.
    + destruct (IH n s R L D) as (A & B). split; [|exact B].
      intros j [<- | J]; [apply B; exact Od | apply A; exact J].
Qed.

Lemma make_sound l n s : sound l s -> sound l (fst (make_googletest l n s)) /\ rules (fst (make_googletest l n s)) = rules s.
Proof.
  intros S. unfold make_googletest. destruct (rules s) as [[k t]|] eqn:R; [|cbn; tauto].
  destruct (compile_sound l k t l n s R S) as (S' & R'). destruct (compile k t l n s) as [s' d]. cbn [fst] in S', R'.
  destruct d; [|cbn; tauto]. destruct (archive_outdated l s'); [|cbn; tauto]. cbn [fst rules]. split; [|exact R'].
  destruct S' as [Ru O M A]. split; cbn.
  - intros k' t' E. apply Ru in E. lia.
  - intros i k' t' E. apply O in E. lia.
  - exact M.
  - intros m t' E. injection E as <- <-. split; [lia|]. intros _. now apply members_ext.
Qed.

(** The library that is made, or is there, was compiled by the rules. *)
Lemma make_members l n s m k t :
  sound l s -> rules s = Some (k, t) -> snd (make_googletest l n s) = Some m -> m = map (fun _ => k) l.
Proof.
  intros S R. unfold make_googletest. rewrite R.
  destruct (compile_sound l k t l n s R S) as (S' & R').
  pose proof (compile_done k t l n s R (s_rules _ _ S _ _ R)) as Dn.
  destruct (compile k t l n s) as [s' d]. cbn [fst snd] in S', R', Dn.
  destruct d; [|discriminate]. destruct (Dn eq_refl) as (Al & _). clear Dn.
  assert (Mb : members l s' = map (fun _ => k) l).
  { unfold members. clear S. revert Al. generalize l as l2. induction l2 as [|j l2 IH2]; intros Al; [reflexivity|]. cbn.
    pose proof (Al j (or_introl eq_refl)) as Oj. destruct (object s' j) as [[k2 t2]|] eqn:E2; [|discriminate]. cbn in Oj.
    apply Nat.leb_gt in Oj. rewrite (s_made _ _ S' _ _ _ _ _ R' E2 Oj). cbn. f_equal. apply IH2. intros j2 J2. apply Al. now right. }
  unfold archive_outdated. destruct (archive s') as [[m' ta]|] eqn:Ar.
  - destruct (existsb _ l) eqn:Ex; cbn [snd].
    + intros E. injection E as <-. exact Mb.
    + intros E. injection E as <-. rewrite <- Mb.
      apply (proj2 (s_archive _ _ S' _ _ Ar)). intros i Il.
      assert (X : (match object s' i with None => true | Some (_, t') => ta <? t' end) = false).
      { apply not_true_is_false. intros X. apply not_true_iff_false in Ex. apply Ex. apply existsb_exists. now exists i. }
      destruct (object s' i) as [[k' t']|]; [|discriminate]. apply Nat.ltb_ge in X. now exists k', t'.
  - cbn [snd]. intros E. injection E as <-. exact Mb.
Qed.

(** What a history leaves. *)
Lemma history_sound l h :
  sound l (dir (history l h)) /\
  (forall b, configured (history l h) b = last_configured b h) /\
  option_map fst (rules (dir (history l h))) = last_shared h.
Proof.
  induction h as [|a h IH] using rev_ind.
  - split; [|split; reflexivity]. split; cbn; discriminate.
  - rewrite history_snoc. destruct IH as (S & C & R). destruct a as [b k own | b n]; cbn [perform].
    + cbn [fst dir configured]. split; [|split].
      * destruct own; [exact S | now apply add_sound].
      * intros x. rewrite last_configured_snoc, (Nat.eqb_sym b x). now rewrite C.
      * rewrite last_shared_snoc. destruct own; [exact R|]. unfold add_googletest.
        destruct (rules (dir (history l h))) as [[k' t]|] eqn:E; [destruct (k' =? k) eqn:Ek|]; cbn; try reflexivity.
        rewrite E. cbn. apply Nat.eqb_eq in Ek. now subst.
    + rewrite last_shared_snoc.
      assert (K : sound l (dir (history l h)) /\ (forall b0, configured (history l h) b0 = last_configured b0 (h ++ [Make b n])) /\
                  option_map fst (rules (dir (history l h))) = last_shared h).
      { split; [exact S | split; [|exact R]]. intros x. rewrite last_configured_snoc. apply C. }
      destruct (configured (history l h) b) as [[k own]|]; [|exact K]. destruct own; [exact K|].
      destruct (make_sound l n (dir (history l h)) S) as (S' & R'). destruct (make_googletest l n (dir (history l h))) as [d m].
      cbn [fst dir configured] in *. split; [exact S' | split; [exact (proj1 (proj2 K)) | now rewrite R']].
Qed.

Lemma compile_all k t : forall l s, snd (compile k t l None s) = true.
Proof. induction l as [|i l IH]; intros s; cbn; [reflexivity|]. destruct (outdated _ _); apply IH. Qed.

(** make without an interruption links. *)
Lemma make_links l s k t : sound l s -> rules s = Some (k, t) -> snd (make_googletest l None s) = Some (map (fun _ => k) l).
Proof.
  intros S R. destruct (snd (make_googletest l None s)) as [m|] eqn:E.
  - f_equal. exact (make_members l None s m k t S R E).
  - exfalso. unfold make_googletest in E. rewrite R in E. pose proof (compile_all k t l s) as D.
    destruct (compile k t l None s) as [s' d]. cbn in D. subst d. unfold archive_outdated in E.
    destruct (archive s') as [[m ta]|]; [destruct (existsb _ l)|]; discriminate.
Qed.

Lemma links_iff l h b m :
  links l h b m <->
  exists k own, last_configured b h = Some (k, own) /\
    if own : bool then m = map (fun _ => k) l else exists k', last_shared h = Some k' /\ m = map (fun _ => k') l.
Proof.
  unfold links. destruct (history_sound l h) as (S & C & R). cbn [perform]. rewrite C. split.
  - intros (n & E). destruct (last_configured b h) as [[k own]|]; [|discriminate]. exists k, own. split; [reflexivity|].
    destruct own.
    + destruct n; [discriminate|]. now injection E as <-.
    + destruct (rules (dir (history l h))) as [[k' t]|] eqn:Ru.
      * exists k'. split; [now rewrite <- R|]. destruct (make_googletest l n (dir (history l h))) as [d m'] eqn:Mk. cbn in E. subst m'.
        apply (make_members l n _ m k' t S Ru). now rewrite Mk.
      * unfold make_googletest in E. rewrite Ru in E. discriminate.
  - intros (k & own & E & M). exists None. rewrite E. destruct own; [now subst|].
    destruct M as (k' & L & ->). rewrite L in R. destruct (rules (dir (history l h))) as [[k2 t]|] eqn:Ru; [|discriminate].
    injection R as ->. pose proof (make_links l _ k' t S Ru) as Q. destruct (make_googletest l None (dir (history l h))). exact Q.
Qed.

(** A directory that was configured without its own googletest has left rules. *)
Lemma shared_configured b h k : last_configured b h = Some (k, false) -> exists k', last_shared h = Some k'.
Proof.
  induction h as [|a h IH] using rev_ind; [discriminate|]. rewrite last_configured_snoc, last_shared_snoc.
  destruct a as [b' k2 own | b' n]; [|exact IH]. destruct (b' =? b).
  - intros E. injection E as <- ->. now exists k2.
  - destruct own; [exact IH | intros _; now exists k2].
Qed.
