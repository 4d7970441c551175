(** The descriptors that the calls of a group use (C152): SyscallModel.v and LifeModel.v agree. What a step of a thread leaves alone. *)
From Coq Require Import ZArith Bool String List Lia.
From Verif Require Import Outcome ResultModel CInt CanFrameModel CanFrameProofs SocketCanModel SocketCanProofs GroupModel GroupSpec GroupProofs
  ManagerModel OomModel OwnerModel LifeModel LifeSpec SyscallModel SyscallSpec SyscallProofs.
Import ListNotations.
Open Scope Z_scope.

(** The system calls added to a trace, by the descriptors they use. *)
Definition adds (tr tr' : list (syscall * (Z * Z))) (ds : list Z) : Prop := exists new, tr' = (tr ++ new)%list /\ flat_map (fun e => uses (fst e)) new = ds.

Lemma adds_nothing : forall tr, adds tr tr [].
Proof. intros. exists []. rewrite app_nil_r. auto. Qed.
Lemma adds_one : forall tr c a, adds tr (tr ++ [(c, a)])%list (uses c).
Proof. intros. exists [(c, a)]. simpl. rewrite app_nil_r. auto. Qed.
Lemma adds_trans : forall a b c x y, adds a b x -> adds b c y -> adds a c (x ++ y).
Proof. intros a b c x y (n & -> & <-) (n' & -> & <-). exists (n ++ n')%list. rewrite app_assoc, flat_map_app. auto. Qed.

Lemma configure_adds : forall k fd configs num tr r tr', configure_filters k fd configs num tr = Ret (r, tr') ->
  adds tr tr' [fd] \/ adds tr tr' [] /\ result_not r = true.
Proof.
  intros k fd configs num tr r tr' E. unfold configure_filters in E. destruct (_ && _ && _); [injection E as <- <-; right; split; [apply adds_nothing|reflexivity]|].
  left. destruct (num =? 0)%nat.
  - unfold sys in E. destruct (k tr _) as [x y]. injection E as <- <-. apply adds_one.
  - destruct configs as [cs|]; [|discriminate]. destruct (convert_filters num cs) as [fs|]; [|discriminate]. cbn [bind] in E.
    unfold sys in E. destruct (k tr _) as [x y]. injection E as <- <-. apply adds_one.
Qed.

Lemma chosen_cons : forall g i w s, nth_error g i = Some s -> chosen g (i :: w) = getSocketDescriptor s :: chosen g w.
Proof. intros. unfold chosen. cbn [flat_map]. rewrite H. reflexivity. Qed.

Lemma reconfigure_adds : forall k g configs num fuel i tr r tr', reconfigure fuel i k g configs num tr = Some (Ret (r, tr')) ->
  exists which, adds tr tr' (chosen g which) /\ (0 <= i -> (length g <= 255)%nat -> exists n, which = seq (Z.to_nat i) n).
Proof.
  intros k g configs num. induction fuel as [|fuel IH]; intros i tr r tr' E; [discriminate|]. cbn [reconfigure] in E.
  destruct (i <? Z.of_nat (length g)) eqn:L; [|injection E as <- <-; exists []; split; [apply adds_nothing|intros _ _; exists 0%nat; reflexivity]].
  destruct (nth_error g (Z.to_nat i)) as [s|] eqn:N; [|discriminate].
  destruct (configure_filters k (getSocketDescriptor s) configs num tr) as [[x tr1]|] eqn:C; [|discriminate].
  apply configure_adds in C. destruct (result_not x) eqn:X.
  - injection E as <- <-. destruct C as [C|[C _]].
    + exists [Z.to_nat i]. split; [rewrite (chosen_cons g _ _ s N); exact C|]. intros _ _. exists 1%nat. reflexivity.
    + exists []. split; [exact C|]. intros _ _. exists 0%nat. reflexivity.
  - destruct C as [C|[_ C]]; [|discriminate C]. apply IH in E. destruct E as (w & A & S1). exists (Z.to_nat i :: w). split.
    + rewrite (chosen_cons g _ _ s N). apply (adds_trans _ _ _ [_] _ C A).
    + intros I0 LG. apply Z.ltb_lt in L. rewrite Z.mod_small in S1 by lia. destruct (S1 ltac:(lia) LG) as (n & ->). exists (S n).
      replace (Z.to_nat (i + 1)) with (S (Z.to_nat i)) by lia. reflexivity.
Qed.

Lemma chosen_all : forall g, chosen g (seq 0 (length g)) = map getSocketDescriptor g.
Proof.
  intros g. unfold chosen. assert (H : forall pre post, flat_map (fun k => match nth_error (pre ++ post) k with Some f => [getSocketDescriptor f] | None => [] end)
    (seq (length pre) (length post)) = map getSocketDescriptor post).
  { intros pre post. revert pre. induction post as [|s post IH]; intros pre; [reflexivity|]. cbn [length seq flat_map map].
    rewrite nth_error_app2, Nat.sub_diag by lia. cbn [nth_error app]. f_equal. specialize (IH (pre ++ [s])%list).
    rewrite app_length, <- app_assoc in IH. cbn [length app] in IH. rewrite Nat.add_1_r in IH. exact IH. }
  apply (H [] g).
Qed.

Lemma same_descriptors : forall g i s s', nth_error g i = Some s -> if_fd s' = if_fd s ->
  map getSocketDescriptor (replace_nth i s' g) = map getSocketDescriptor g.
Proof.
  induction g as [|x g IH]; intros [|i] s s' N E; try discriminate; simpl in *.
  - injection N as ->. unfold getSocketDescriptor at 1 3. rewrite E. reflexivity.
  - f_equal. eapply IH; eauto.
Qed.

Lemma select_asks : forall P ppoll g t ig r req, select P ppoll g t ig = Ret (r, req) -> map fst (pr_fds req) = map getSocketDescriptor g.
Proof.
  intros P ppoll g t ig r req E. unfold select in E. cbn zeta in E. apply bind_ret_inv in E. destruct E as [nsec [_ E]].
  match type of E with context [ppoll ?q] => set (req' := q) in * end.
  assert (RQ : req = req').
  { destruct (ppoll req') as [a b]. destruct (a =? 0); [|destruct (a <? 0); [|destruct (existsb _ _)]]; now injection E. }
  rewrite RQ. unfold req'. cbn [pr_fds]. rewrite map_map. reflexivity.
Qed.

Lemma chosen_same : forall g g' w, map getSocketDescriptor g = map getSocketDescriptor g' -> chosen g w = chosen g' w.
Proof.
  intros g g' w E. unfold chosen. induction w as [|k w IH]; [reflexivity|]. cbn [flat_map]. rewrite IH. f_equal.
  pose proof (map_nth_error getSocketDescriptor k g) as A. pose proof (map_nth_error getSocketDescriptor k g') as B.
  assert (L : length g = length g') by (rewrite <- (map_length getSocketDescriptor g), E; apply map_length).
  destruct (nth_error g k) as [x|] eqn:X, (nth_error g' k) as [y|] eqn:Y; auto.
  - specialize (A _ eq_refl). specialize (B _ eq_refl). rewrite E, B in A. injection A as ->. reflexivity.
  - apply nth_error_None in Y. assert (k < length g)%nat by (apply nth_error_Some; congruence). lia.
  - apply nth_error_None in X. assert (k < length g')%nat by (apply nth_error_Some; congruence). lia.
Qed.

Lemma calls_use : forall P fuel k m o g tr r p' tr',
  (forall c n, o <> Op_start c n) -> o <> Op_stop ->
  step P fuel k m o (Some g) tr = Some (Ret (r, p', tr')) ->
  exists which new g', tr' = (tr ++ new)%list /\ flat_map (fun e => uses (fst e)) new = chosen g which /\
    p' = Some g' /\ map getSocketDescriptor g' = map getSocketDescriptor g /\
    match o with
    | Op_write i _ _ | Op_read _ i _ => which = [] \/ which = [Z.to_nat i]
    | Op_select _ _ _ => which = seq 0 (length g)
    | Op_reconfigure _ _ => (length g <= 255)%nat -> exists n, which = seq 0 n
    | _ => False
    end.
Proof.
  intros P fuel k m o g tr r p' tr' NS NT E. destruct o as [c n| |c n|i fs n|msgs i out|t ig v]; [exfalso; apply (NS c n); reflexivity|congruence|..]; cbn [step] in E.
  - destruct (reconfigure fuel 0 k g c n tr) as [[[x tr1]|]|] eqn:R; try discriminate. injection E as <- <- <-.
    apply reconfigure_adds in R. destruct R as (w & (new & -> & U) & S1). exists w, new, g. repeat split; auto. intros LG. exact (S1 ltac:(lia) LG).
  - unfold group_write_call in E. destruct (Z.of_nat (length g) <=? i).
    + cbn [bind] in E. injection E as <- <- <-. exists [], [], g. rewrite app_nil_r. repeat split; auto.
    + destruct (nth_error g (Z.to_nat i)) as [s|] eqn:N; [|discriminate]. unfold write_call in E.
      destruct (write _ s fs n) as [w|] eqn:W; [|discriminate]. cbn [bind] in E. injection E as <- <- <-.
      assert (FD : if_fd (wr_if w) = if_fd s) by (apply (write_keeps _ _ _ _ _ W)).
      destruct (wr_sent w) as [sent|].
      * exists [Z.to_nat i]. unfold sys. cbn [snd]. eexists [_], _. split; [reflexivity|]. rewrite (chosen_cons g _ _ s N). cbn. repeat split; auto.
        eapply same_descriptors; eauto.
      * exists [], [], (replace_nth (Z.to_nat i) (wr_if w) g). rewrite app_nil_r. repeat split; auto. eapply same_descriptors; eauto.
  - unfold group_read_call in E. destruct (Z.of_nat (length g) <=? i).
    + cbn [bind] in E. injection E as <- <- <-. exists [], [], g. rewrite app_nil_r. repeat split; auto.
    + destruct (nth_error g (Z.to_nat i)) as [s|] eqn:N; [|discriminate]. unfold read_call, sys in E.
      destruct (k tr _) as [res errno] eqn:K. destruct (read res errno msgs s out) as [w|] eqn:W; [|discriminate]. cbn [bind] in E. injection E as <- <- <-.
      destruct (read_same _ _ _ _ _ _ W) as [_ FD].
      exists [Z.to_nat i]. eexists [_], _. split; [reflexivity|]. rewrite (chosen_cons g _ _ s N). cbn. repeat split; auto.
      eapply same_descriptors; eauto.
  - unfold select_call in E. destruct (select _ _ _ _ _) as [[x req]|] eqn:S1; [|discriminate]. cbn [bind] in E. injection E as <- <- <-.
    exists (seq 0 (length g)). unfold sys. cbn [snd]. eexists [_], g. split; [reflexivity|]. cbn [flat_map fst uses]. rewrite app_nil_r, chosen_all.
    apply select_asks in S1. repeat split; auto.
Qed.

(** What a step may change. *)
Definition actor (a : act) : nat := match a with Begin t _ | Go t => t end.
Lemma step_shape : forall a s s', life_step a s = Some (Ret s') ->
  (exists k, l_doing s' = replace_nth (actor a) k (l_doing s)) /\
  (l_vars s' = l_vars s \/ exists v p back, a = Go (actor a) /\ nth_error (l_doing s) (actor a) = Some (Storing v p back) /\ l_vars s' = replace_nth v p (l_vars s)) /\
  (l_heap s' = l_heap s \/ (exists g, l_heap s' = (l_heap s ++ [Cell g 1])%list) \/
   exists i g n m, nth_error (l_heap s) i = Some (Cell g n) /\ l_heap s' = replace_nth i (Cell g m) (l_heap s)).
Proof.
  intros [t o|t] s s' E; cbn [life_step actor] in *.
  - destruct (nth_error (l_doing s) t) as [[]|] eqn:T; try discriminate.
    assert (N : exists k, s' = now t k s).
    { destruct o as [v w|v fuel m c n k mem|d sr|v]; cbn [begin] in E.
      - destruct (nth_error (l_vars s) v) as [[i|]|]; try discriminate. destruct (alive s i); [|discriminate]. injection E as <-. eauto.
      - destruct (start_x _ _ _ _ _ _ _ _) as [[[[[r p] w]|[r w]]|]|]; try discriminate; injection E as <-; eauto.
      - destruct (nth_error (l_vars s) sr) as [[i|]|]; try discriminate; injection E as <-; eauto.
      - injection E as <-; eauto. }
    destruct N as [k ->]. cbn. split; [eauto|auto].
  - destruct (nth_error (l_doing s) t) as [k|] eqn:T; [|discriminate].
    destruct k as [|v i ds|v past [|[d|d] todo] [g|]|ds sr i|v p back|i back|i [|d ds] back|v]; cbn [go] in E; try discriminate.
    all: repeat match type of E with
         | context [match alive ?s ?i with _ => _ end] => destruct (alive s i) eqn:?; try discriminate
         | context [if LifeModel.is_open ?d ?s then _ else _] => destruct (LifeModel.is_open d s) eqn:?; try discriminate
         | context [match nth_error (l_heap ?s) ?i with _ => _ end] => destruct (nth_error (l_heap s) i) as [[g [|n]]|] eqn:?; try discriminate
         | context [match nth_error (l_vars ?s) ?i with _ => _ end] => destruct (nth_error (l_vars s) i) as [old|] eqn:?; try discriminate
         end.
    all: try (destruct old; try discriminate).
    all: try (match type of E with context [match alive ?s ?i with _ => _ end] => destruct (alive s i) eqn:?; try discriminate end).
    all: injection E as <-; cbn [now l_doing l_vars l_heap]; split; [eauto|]; split; auto; eauto 9.
    all: try (right; eauto 9).
Qed.

Lemma group_at_replace : forall s i g n m k heap, nth_error (l_heap s) i = Some (Cell g n) -> heap = replace_nth i (Cell g m) (l_heap s) ->
  forall vars table doing, group_at (Life heap vars table doing) k = group_at s k.
Proof.
  intros s i g n m k heap N -> vars table doing. unfold group_at. cbn [l_heap]. destruct (Nat.eq_dec i k) as [->|D].
  - rewrite nth_error_replace_same, N by (apply nth_error_Some; congruence). reflexivity.
  - rewrite nth_error_replace_other by exact D. reflexivity.
Qed.
