(** Proofs about threads that share interface groups (C152). *)
From Coq Require Import ZArith Bool String List Lia Permutation.
From Verif Require Import Outcome ResultModel CanFrameModel CanFrameProofs SocketCanModel GroupModel GroupProofs ManagerModel ManagerSpec ManagerProofs
  OomModel OomProofs OwnerModel LifeModel LifeSpec.
Import ListNotations.
Open Scope Z_scope.

(** ** Sums over lists *)
Definition total {A} (f : A -> nat) (l : list A) : nat := list_sum (map f l).

Lemma total_app : forall A (f : A -> nat) a b, total f (a ++ b) = (total f a + total f b)%nat.
Proof. intros. unfold total. rewrite map_app, list_sum_app. reflexivity. Qed.

Lemma total_replace : forall A (f : A -> nat) l t a b, nth_error l t = Some a ->
  (total f (replace_nth t b l) + f a = total f l + f b)%nat.
Proof.
  induction l as [|x l IH]; intros [|t] a b E; try discriminate E.
  - injection E as ->. unfold total. simpl. lia.
  - specialize (IH t a b E). unfold total in *. simpl in *. lia.
Qed.

Lemma total_le : forall A (f : A -> nat) l t a, nth_error l t = Some a -> (f a <= total f l)%nat.
Proof.
  induction l as [|x l IH]; intros [|t] a E; try discriminate E.
  - injection E as ->. unfold total. simpl. lia.
  - specialize (IH t a E). unfold total in *. simpl in *. lia.
Qed.

Lemma total_two : forall A (f : A -> nat) l t u a b, t <> u -> nth_error l t = Some a -> nth_error l u = Some b ->
  (f a + f b <= total f l)%nat.
Proof.
  induction l as [|x l IH]; intros [|t] [|u] a b N E E2; try discriminate; try congruence.
  - injection E as ->. pose proof (total_le A f l u b E2). unfold total in *. simpl. lia.
  - injection E2 as ->. pose proof (total_le A f l t a E). unfold total in *. simpl. lia.
  - specialize (IH t u a b ltac:(congruence) E E2). unfold total in *. simpl. lia.
Qed.

Lemma total_zero : forall A (f : A -> nat) l, Forall (fun x => f x = 0%nat) l -> total f l = 0%nat.
Proof. induction 1; unfold total in *; simpl; lia. Qed.

Definition occ (d : Z) (l : list Z) : nat := count_occ Z.eq_dec l d.

Lemma occ_app : forall d a b, occ d (a ++ b) = (occ d a + occ d b)%nat.
Proof. intros. apply count_occ_app. Qed.

Lemma occ_cons : forall d x l, occ d (x :: l) = ((if Z.eq_dec x d then 1 else 0) + occ d l)%nat.
Proof. intros. unfold occ. simpl. destruct (Z.eq_dec x d); reflexivity. Qed.

Lemma occ_remove : forall d x l, NoDup l -> In x l -> (occ d (List.remove Z.eq_dec x l) + (if Z.eq_dec x d then 1 else 0) = occ d l)%nat.
Proof.
  intros d x l ND I. pose proof (remove_perm x l ND I) as P.
  unfold occ. rewrite (proj1 (Permutation_count_occ Z.eq_dec _ _) P d). simpl. destruct (Z.eq_dec x d); lia.
Qed.

Lemma occ_perm : forall d a b, Permutation a b -> occ d a = occ d b.
Proof. intros d a b P. apply (proj1 (Permutation_count_occ Z.eq_dec a b) P d). Qed.

Lemma occ_flat_map : forall A (f : A -> list Z) d l, occ d (flat_map f l) = total (fun x => occ d (f x)) l.
Proof. induction l as [|x l IH]; simpl; auto. rewrite occ_app, IH. reflexivity. Qed.

Lemma occ_in : forall d l, In d l <-> (1 <= occ d l)%nat.
Proof. intros. unfold occ. rewrite (count_occ_In Z.eq_dec). lia. Qed.

Lemma nodup_occ : forall l, NoDup l <-> forall d, (occ d l <= 1)%nat.
Proof. intros. apply (NoDup_count_occ Z.eq_dec). Qed.

(** ** The invariant *)
Definition ptr (i : nat) (p : option nat) : nat := match p with Some j => if (j =? i)%nat then 1 else 0 | None => 0 end.
Definition ref (i : nat) (k : task) : nat :=
  match k with
  | Storing _ p _ => ptr i p
  | Releasing j _ => ptr i (Some j)
  | _ => 0
  end.
Definition count_of (s : life) (i : nat) : nat := match nth_error (l_heap s) i with Some c => c_uses c | None => 0 end.

Definition cell_ds (c : cell) : list Z := match c with Cell _ O => [] | Cell g _ => map getSocketDescriptor g end.
Definition task_ds (k : task) : list Z :=
  match k with
  | Starting _ past _ _ => match replay [] past with Some ds => ds | None => [] end
  | Closing _ ds _ => ds
  | _ => []
  end.

Definition not_null (s : life) (v : nat) : Prop := exists j, nth_error (l_vars s) v = Some (Some j).
Definition back_ok (s : life) (back : option nat) : Prop := match back with Some v => not_null s v | None => True end.

Definition task_ok (s : life) (k : task) : Prop :=
  match k with
  | Idle => True
  | Calling v i ds => nth_error (l_vars s) v = Some (Some i) /\ (i < length (l_heap s))%nat /\
      forall d, In d ds -> In d (map getSocketDescriptor (group_at s i))
  | Starting v past todo p => (v < length (l_vars s))%nat /\
      exists ds zeros, replay [] (past ++ todo) = Some ds /\ Forall (eq 0) zeros /\ Permutation ds (zeros ++ owned p)
  | Retaining dst src i => (dst < length (l_vars s))%nat /\ nth_error (l_vars s) src = Some (Some i)
  | Storing v p back => (v < length (l_vars s))%nat /\ (back = None \/ back = Some v /\ p <> None)
  | Releasing _ back => back_ok s back
  | Closing _ _ back => back_ok s back
  | Checking v => not_null s v
  end.

Record Inv (live : list Z) (s : life) : Prop := {
  I_count : forall i, count_of s i = (total (ptr i) (l_vars s) + total (ref i) (l_doing s))%nat;
  I_tasks : forall t k, nth_error (l_doing s) t = Some k -> task_ok s k;
  I_fds : exists leaked, Forall (eq 0) leaked /\ forall d,
      occ d (l_table s) = (occ d live + occ d leaked + total (fun c => occ d (cell_ds c)) (l_heap s) +
                           total (fun k => occ d (task_ds k)) (l_doing s))%nat;
  I_nodup : NoDup (l_table s)
}.

Lemma ok_kept : forall s s' k, task_ok s k ->
  length (l_vars s') = length (l_vars s) ->
  (forall v, uses k v -> nth_error (l_vars s') v = nth_error (l_vars s) v) ->
  (length (l_heap s) <= length (l_heap s'))%nat ->
  (forall i, (i < length (l_heap s))%nat -> group_at s' i = group_at s i) ->
  task_ok s' k.
Proof.
  intros s s' k OK LV V LH G. unfold task_ok in *. destruct k as [|v i ds|v past todo p|dst src i|v p back|i back|i ds back|v]; auto.
  - destruct OK as (A & B & C). rewrite (V v eq_refl), (G i B). split; auto. split; auto. lia.
  - rewrite LV. exact OK.
  - destruct OK as (A & B). rewrite LV, (V src eq_refl). auto.
  - rewrite LV. exact OK.
  - destruct back as [w|]; simpl in *; auto. unfold not_null. rewrite (V w eq_refl). exact OK.
  - destruct back as [w|]; simpl in *; auto. unfold not_null. rewrite (V w eq_refl). exact OK.
  - unfold not_null. rewrite (V v eq_refl). exact OK.
Qed.

(** A thread's next task, all else given. *)
Lemma tasks_after : forall s s' t k', (t < length (l_doing s))%nat ->
  task_ok s' k' ->
  (forall u k, u <> t -> nth_error (l_doing s) u = Some k -> task_ok s' k) ->
  forall u k, nth_error (replace_nth t k' (l_doing s)) u = Some k -> task_ok s' k.
Proof.
  intros s s' t k' L K O u k E. destruct (Nat.eq_dec t u) as [<- | N].
  - rewrite nth_error_replace_same in E by exact L. injection E as <-. exact K.
  - rewrite nth_error_replace_other in E by exact N. apply (O u k); auto.
Qed.

Lemma group_replace : forall i g n m heap vars table doing j,
  nth_error heap i = Some (Cell g n) ->
  group_at (Life (replace_nth i (Cell g m) heap) vars table doing) j = group_at (Life heap vars table doing) j.
Proof.
  intros i g n m heap vars table doing j E. unfold group_at. cbn [l_heap]. destruct (Nat.eq_dec i j) as [<- | N].
  - rewrite nth_error_replace_same by (apply nth_error_Some; congruence). rewrite E. reflexivity.
  - rewrite nth_error_replace_other by exact N. reflexivity.
Qed.

Lemma pointer_counts : forall live s v i, Inv live s -> nth_error (l_vars s) v = Some (Some i) -> (1 <= count_of s i)%nat.
Proof.
  intros live s v i I E. rewrite (I_count _ _ I). pose proof (total_le _ (ptr i) _ v _ E) as L. simpl in L. rewrite Nat.eqb_refl in L. lia.
Qed.

Lemma counted_alive : forall s i, (1 <= count_of s i)%nat -> exists g n, nth_error (l_heap s) i = Some (Cell g (S n)).
Proof.
  intros s i H. unfold count_of in H. destruct (nth_error (l_heap s) i) as [[g [|n]]|]; simpl in H; try lia. eauto.
Qed.

Lemma ptr_same : forall i, ptr i (Some i) = 1%nat.
Proof. intros. simpl. rewrite Nat.eqb_refl. reflexivity. Qed.
Lemma ptr_other : forall i j, i <> j -> ptr i (Some j) = 0%nat.
Proof. intros. simpl. destruct (Nat.eqb_spec j i); congruence. Qed.

Lemma ref_check : forall i back, ref i (then_check back) = 0%nat.
Proof. intros i [v|]; reflexivity. Qed.
Lemma ds_check : forall back, task_ds (then_check back) = [].
Proof. intros [v|]; reflexivity. Qed.
Lemma ok_check : forall s back, back_ok s back -> task_ok s (then_check back).
Proof. intros s [v|] H; simpl; auto. Qed.

Lemma replace_len : forall A t (k : A) l, length (replace_nth t k l) = length l.
Proof. intros. apply replace_nth_length. Qed.

(** Steps that change nothing but the thread's task. *)
Lemma inv_now : forall live s t k k', Inv live s -> nth_error (l_doing s) t = Some k ->
  (forall i, ref i k' = ref i k) -> (forall d, occ d (task_ds k') = occ d (task_ds k)) -> task_ok s k' ->
  Inv live (now t k' s).
Proof.
  intros live s t k k' I E R D OK. assert (L : (t < length (l_doing s))%nat) by (apply nth_error_Some; congruence).
  constructor; cbn [now l_heap l_vars l_table l_doing].
  - intros i. unfold count_of. cbn [l_heap now]. pose proof (I_count _ _ I i) as C. unfold count_of in C. rewrite C.
    pose proof (total_replace _ (ref i) (l_doing s) t k k' E). rewrite R in H. lia.
  - apply (tasks_after s (now t k' s) t k' L); [apply (ok_kept s); auto|]. intros u j _ U.
    apply (ok_kept s); auto. apply (I_tasks _ _ I u j U).
  - destruct (I_fds _ _ I) as (leaked & Z0 & F). exists leaked. split; auto. intros d. rewrite F.
    pose proof (total_replace _ (fun k => occ d (task_ds k)) (l_doing s) t k k' E) as T. cbn beta in T. rewrite D in T. lia.
  - apply (I_nodup _ _ I).
Qed.

Lemma chosen_in : forall g which d, In d (chosen g which) -> In d (map getSocketDescriptor g).
Proof.
  intros g which d H. unfold chosen in H. apply in_flat_map in H. destruct H as (k & _ & H).
  destruct (nth_error g k) as [f|] eqn:E; [|destruct H]. destruct H as [<- | []]. apply in_map. eapply nth_error_In. exact E.
Qed.

(** Starting is always defined. *)
Lemma start_loop_defined : forall mem m configs num kernel, configs_ok configs num -> forall fuel i t acc w, 0 <= i ->
  start_loop_x mem fuel i t m configs num kernel acc w <> Some UB.
Proof.
  intros mem m configs num kernel OK. induction fuel as [|k IH]; intros i t acc w Hi; [discriminate|]. cbn [start_loop_x].
  destruct (Z.ltb_spec i (Z.of_nat (length (m_required m)))) as [L|L]; [|discriminate].
  destruct (nth_error (m_required m) (Z.to_nat i)) as [name|] eqn:N; [|apply nth_error_None in N; lia].
  destruct (create_x_cases mem t m i name configs num (kernel t (w_trace w)) w OK) as [([[r o] w1] & C & _)|(w1 & C & _)]; rewrite C; [|discriminate].
  apply IH. apply Z.mod_pos_bound. lia.
Qed.

Lemma start_defined : forall mem fuel m configs num kernel, configs_ok configs num ->
  start_x mem fuel m configs num kernel None (World [] []) <> Some UB.
Proof.
  intros mem fuel m configs num kernel OK E. unfold start_x in E. destruct (mem P_reserve); [discriminate|].
  pose proof (start_loop_defined mem m configs num kernel OK fuel 0 0%nat [] (World [] []) ltac:(lia)) as D.
  destruct (start_loop_x _ _ _ _ _ _ _ _ _ _) as [[[[[|f g] w]|w]|]|]; try congruence. destruct (_ || _); discriminate.
Qed.

(** ** Beginning *)
Lemma inv_begin : forall live s t o, Inv live s -> nth_error (l_doing s) t = Some Idle -> allowed o s ->
  match begin t o s with Some UB => False | Some (Ret s') => Inv live s' | None => True end.
Proof.
  intros live s t o I E AL. destruct o as [v which|v fuel m configs num kernel mem|dst src|v]; cbn [begin].
  - destruct AL as (i & V). rewrite V. destruct (counted_alive s i (pointer_counts live s v i I V)) as (g & n & A).
    unfold alive. rewrite A. apply (inv_now live s t Idle); auto. cbn [task_ok]. split; auto. split; [apply nth_error_Some; congruence|].
    intros d H. unfold group_at. rewrite A. apply (chosen_in g which d H).
  - destruct AL as (L & OK & FR). destruct (start_x mem fuel m configs num kernel None (World [] [])) as [[[[[r p] w]|[p w]]|]|] eqn:S; auto.
    + apply (inv_now live s t Idle); auto. cbn [task_ok app]. split; auto. apply start_x_returned in S; auto.
      destruct (start_live fuel m configs num kernel None [] [] [] r p w OK FR (NoDup_nil _) (Permutation_refl _) S)
        as (ds & zeros & R & _ & Z0 & P). exists ds, zeros. auto.
    + apply (inv_now live s t Idle); auto. cbn [task_ok app]. split; auto.
      destruct (start_x_threw mem fuel m configs num kernel None (World [] []) [] [] p w OK FR eq_refl (NoDup_nil _) S) as (_ & (ds & zeros & R & _ & Z0 & P) & _).
      exists ds, zeros. cbn [owned]. rewrite app_nil_r. auto.
    + exact (start_defined mem fuel m configs num kernel OK S).
  - destruct AL as (D & L). destruct (nth_error (l_vars s) src) as [[i|]|] eqn:V.
    + apply (inv_now live s t Idle); auto. simpl. auto.
    + apply (inv_now live s t Idle); auto. simpl. auto.
    + apply nth_error_None in V. lia.
  - apply (inv_now live s t Idle); auto. simpl. auto.
Qed.

(** ** Going on *)

Lemma count_replace : forall heap vars table doing vars' table' doing' j g n m i, nth_error heap j = Some (Cell g n) ->
  count_of (Life (replace_nth j (Cell g m) heap) vars table doing) i =
  if (j =? i)%nat then m else count_of (Life heap vars' table' doing') i.
Proof.
  intros. unfold count_of. cbn [l_heap]. destruct (Nat.eqb_spec j i) as [-> | N].
  - rewrite nth_error_replace_same by (apply nth_error_Some; congruence). reflexivity.
  - rewrite nth_error_replace_other by exact N. reflexivity.
Qed.

Lemma group_app : forall heap vars table doing c i vars' table' doing', (i < length heap)%nat ->
  group_at (Life (heap ++ [c]) vars table doing) i = group_at (Life heap vars' table' doing') i.
Proof. intros. unfold group_at. cbn [l_heap]. rewrite nth_error_app1 by auto. reflexivity. Qed.

Lemma prefix_replay : forall past e todo ds, replay [] (past ++ e :: todo) = Some ds ->
  exists l l', replay [] past = Some l /\ replay l [e] = Some l' /\ replay [] (past ++ [e]) = Some l' /\
    replay [] ((past ++ [e]) ++ todo) = Some ds.
Proof.
  intros past e todo ds R. rewrite replay_app in R. destruct (replay [] past) as [l|] eqn:P; [|discriminate].
  change (e :: todo) with ([e] ++ todo) in R. rewrite replay_app in R. destruct (replay l [e]) as [l'|] eqn:Q; [|discriminate].
  exists l, l'. rewrite replay_app, P, Q. repeat split; auto. rewrite replay_app, replay_app, P, Q. exact R.
Qed.

Lemma task_in_table : forall live s t k d, Inv live s -> nth_error (l_doing s) t = Some k -> In d (task_ds k) -> In d (l_table s).
Proof.
  intros live s t k d I E H. apply occ_in. destruct (I_fds _ _ I) as (leaked & _ & F). rewrite F.
  pose proof (total_le _ (fun k => occ d (task_ds k)) _ t k E) as L. cbn beta in L. apply occ_in in H. lia.
Qed.

Lemma task_nodup : forall live s t k, Inv live s -> nth_error (l_doing s) t = Some k -> NoDup (task_ds k).
Proof.
  intros live s t k I E. apply nodup_occ. intros d. destruct (I_fds _ _ I) as (leaked & _ & F).
  pose proof (total_le _ (fun k => occ d (task_ds k)) _ t k E) as L. cbn beta in L.
  pose proof (proj1 (nodup_occ _) (I_nodup _ _ I) d). rewrite F in H. lia.
Qed.

Lemma cell_in_table : forall live s i g n d, Inv live s -> nth_error (l_heap s) i = Some (Cell g (S n)) ->
  In d (map getSocketDescriptor g) -> In d (l_table s).
Proof.
  intros live s i g n d I E H. apply occ_in. destruct (I_fds _ _ I) as (leaked & _ & F). rewrite F.
  pose proof (total_le _ (fun c => occ d (cell_ds c)) _ i _ E) as L. cbn beta iota delta [cell_ds] in L. apply occ_in in H. lia.
Qed.

Lemma inv_go : forall live s t k, Inv live s -> nth_error (l_doing s) t = Some k -> ~ meddling s ->
  match go t k s with Some UB => False | Some (Ret s') => Inv live s' | None => True end.
Proof.
  intros live s t k I E NM. pose proof (I_tasks _ _ I t k E) as OK.
  assert (L : (t < length (l_doing s))%nat) by (apply nth_error_Some; congruence).
  pose proof I as [IC IT (leaked & Z0 & IF) IN].
  assert (TR : forall k' i, (total (ref i) (replace_nth t k' (l_doing s)) + ref i k = total (ref i) (l_doing s) + ref i k')%nat)
    by (intros; apply total_replace; exact E).
  assert (TD : forall k' d, (total (fun k => occ d (task_ds k)) (replace_nth t k' (l_doing s)) + occ d (task_ds k) =
                        total (fun k => occ d (task_ds k)) (l_doing s) + occ d (task_ds k'))%nat)
    by (intros; apply (total_replace _ (fun k => occ d (task_ds k))); exact E).
  destruct k as [|v i ds|v past [|[d|d] todo] p|dst src i|v p back|i back|i [|d ds] back|v]; cbn [go].
  - exact Logic.I.
  - (* Calling *)
    destruct OK as (V & B & C). destruct (counted_alive s i (pointer_counts live s v i I V)) as (g & n & A). unfold alive. rewrite A.
    apply (inv_now live s t (Calling v i ds)); auto; [destruct ds; reflexivity | destruct ds; reflexivity|].
    destruct ds as [|d ds]; cbn [task_ok]; auto. split; auto. split; auto. intros x X. apply C. right. exact X.
  - (* Starting, over *)
    destruct OK as (LV & ds & zeros & R & ZZ & P). rewrite app_nil_r in R.
    assert (TK : forall d, occ d (task_ds (Starting v past [] p)) = (occ d zeros + occ d (owned p))%nat).
    { intros d. cbn [task_ds]. rewrite R. rewrite (occ_perm d _ _ P). apply occ_app. }
    destruct p as [g|].
    + set (s' := Life (l_heap s ++ [Cell g 1]) (l_vars s) (l_table s) (l_doing s)).
      assert (C0 : count_of s (length (l_heap s)) = 0%nat).
      { unfold count_of. rewrite (proj2 (nth_error_None _ _)) by lia. reflexivity. }
      constructor; cbn [now s' l_heap l_vars l_table l_doing].
      * intros i. specialize (TR (Storing v (Some (length (l_heap s))) (Some v)) i). specialize (IC i). cbn [ref] in TR.
        unfold count_of in *. cbn [l_heap now s'] in *. destruct (Nat.lt_trichotomy i (length (l_heap s))) as [H | [-> | H]].
        -- rewrite nth_error_app1 by exact H. rewrite ptr_other in TR by lia. lia.
        -- rewrite nth_error_app2, Nat.sub_diag by lia. cbn [nth_error c_uses]. rewrite ptr_same in TR. lia.
        -- rewrite (proj2 (nth_error_None (l_heap s ++ [Cell g 1]) i)) by (rewrite app_length; simpl; lia).
           rewrite ptr_other in TR by lia. rewrite (proj2 (nth_error_None (l_heap s) i)) in IC by lia. lia.
      * apply (tasks_after s _ t (Storing v (Some (length (l_heap s))) (Some v)) L).
        -- cbn [task_ok now s' l_vars]. split; auto. right. split; auto. discriminate.
        -- intros u k _ U. apply (ok_kept s); auto; [apply (IT u k U) | cbn [now s' l_heap]; rewrite app_length; lia|].
           intros i Hi. unfold now, s'. cbn [l_heap l_vars l_table l_doing]. unfold group_at. cbn [l_heap].
           rewrite nth_error_app1 by exact Hi. reflexivity.
      * exists (zeros ++ leaked). split; [apply Forall_app; auto|]. intros d. specialize (TD (Storing v (Some (length (l_heap s))) (Some v)) d).
        rewrite TK in TD. cbn [task_ds owned] in TD. change (occ d []) with 0%nat in TD. rewrite IF, total_app, occ_app.
        unfold total at 4. cbn [map list_sum fold_right cell_ds]. lia.
      * exact IN.
    + constructor; cbn [now l_heap l_vars l_table l_doing].
      * intros i. specialize (TR Idle i). cbn [ref] in TR. specialize (IC i). unfold count_of in *. cbn [l_heap now]. lia.
      * apply (tasks_after s _ t Idle L); [exact Logic.I|]. intros u k _ U. apply (ok_kept s); auto. apply (IT u k U).
      * exists (zeros ++ leaked). split; [apply Forall_app; auto|]. intros d. specialize (TD Idle d).
        rewrite TK in TD. cbn [task_ds owned] in TD. change (occ d []) with 0%nat in TD. rewrite IF, occ_app. lia.
      * exact IN.
  - (* Starting, a socket opened *)
    unfold is_open. destruct (existsb (Z.eqb d) (l_table s)) eqn:X; [exact Logic.I|].
    assert (ND : ~ In d (l_table s)) by (rewrite <- existsb_In; congruence).
    destruct OK as (LV & ds & zeros & R & ZZ & P).
    destruct (prefix_replay past (Opened d) todo ds R) as (l & l' & R1 & R2 & R3 & R4).
    cbn [replay] in R2. destruct (existsb (Z.eqb d) l); [discriminate|]. injection R2 as <-.
    set (k' := Starting v (past ++ [Opened d]) todo p).
    constructor; cbn [now l_heap l_vars l_table l_doing].
    * intros i. specialize (TR k' i). cbn [ref k'] in TR. specialize (IC i). unfold count_of in *. cbn [l_heap now]. fold k' in TR. lia.
    * apply (tasks_after s _ t k' L); [cbn [task_ok k' now l_vars]; split; auto; exists ds, zeros; auto|].
      intros u k _ U. apply (ok_kept s); auto. apply (IT u k U).
    * exists leaked. split; auto. intros x. specialize (TD k' x). cbn [task_ds k'] in TD. rewrite R1, R3 in TD. fold k' in TD.
      rewrite occ_cons, IF. rewrite occ_cons in TD. lia.
    * constructor; auto.
  - (* Starting, a socket closed *)
    destruct OK as (LV & ds & zeros & R & ZZ & P).
    destruct (prefix_replay past (Closed d) todo ds R) as (l & l' & R1 & R2 & R3 & R4).
    assert (NDL : NoDup l) by (pose proof (task_nodup live s t _ I E) as Q; cbn [task_ds] in Q; rewrite R1 in Q; exact Q).
    cbn [replay] in R2. destruct (existsb (Z.eqb d) l) eqn:X; [|discriminate]. injection R2 as <-. apply existsb_In in X.
    assert (DT : In d (l_table s)) by (apply (task_in_table live s t _ d I E); cbn [task_ds]; rewrite R1; exact X).
    set (k' := Starting v (past ++ [Closed d]) todo p).
    constructor; cbn [now l_heap l_vars l_table l_doing].
    * intros i. specialize (TR k' i). cbn [ref k'] in TR. specialize (IC i). unfold count_of in *. cbn [l_heap now]. fold k' in TR. lia.
    * apply (tasks_after s _ t k' L); [cbn [task_ok k' now l_vars]; split; auto; exists ds, zeros; auto|].
      intros u k _ U. apply (ok_kept s); auto. apply (IT u k U).
    * exists leaked. split; auto. intros x. specialize (TD k' x). cbn [task_ds k'] in TD. rewrite R1, R3 in TD. fold k' in TD.
      pose proof (occ_remove x d l NDL X). pose proof (occ_remove x d (l_table s) IN DT). rewrite IF in H0. lia.
    * apply NoDup_remove_all. exact IN.
  - (* Retaining *)
    destruct OK as (LD & V). destruct (counted_alive s i (pointer_counts live s src i I V)) as (g & n & A). rewrite A.
    set (k' := Storing dst (Some i) None).
    pose proof (total_replace _ (fun c => 1%nat) _ i _ (Cell g (S (S n))) A) as _.
    constructor; cbn [now l_heap l_vars l_table l_doing].
    * intros j. specialize (TR k' j). cbn [ref k'] in TR. fold k' in TR. specialize (IC j). unfold count_of in *. cbn [l_heap now] in *.
      destruct (Nat.eq_dec i j) as [<- | N].
      -- rewrite nth_error_replace_same by (apply nth_error_Some; congruence). rewrite A in IC. rewrite ptr_same in TR. cbn [c_uses] in *. lia.
      -- rewrite nth_error_replace_other by exact N. rewrite ptr_other in TR by congruence. lia.
    * apply (tasks_after s _ t k' L); [cbn [task_ok k' now l_vars]; auto|].
      intros u k _ U. apply (ok_kept s); auto; [apply (IT u k U) | cbn [now l_heap]; rewrite replace_len; auto|].
      intros j _. unfold now. cbn [l_heap l_vars l_table l_doing]. destruct s as [hp vs tb dn]. cbn [l_heap l_vars l_table l_doing] in *.
      unfold group_at. cbn [l_heap]. apply (group_replace i g (S n) (S (S n)) hp vs tb dn j A).
    * exists leaked. split; auto. intros x. specialize (TD k' x). cbn [task_ds k'] in TD. fold k' in TD.
      pose proof (total_replace _ (fun c => occ x (cell_ds c)) _ i _ (Cell g (S (S n))) A) as H. cbn [cell_ds] in H. rewrite IF. lia.
    * exact IN.
  - (* Storing *)
    destruct OK as (LV & B). destruct (nth_error (l_vars s) v) as [old|] eqn:V; [|apply nth_error_None in V; lia].
    set (k' := match old with Some i => Releasing i back | None => then_check back end).
    assert (RK : forall i, ref i k' = ptr i old) by (intros i; unfold k'; destruct old; [reflexivity | apply ref_check]).
    assert (DK : task_ds k' = []) by (unfold k'; destruct old; [reflexivity | apply ds_check]).
    constructor; cbn [now l_heap l_vars l_table l_doing].
    * intros i. specialize (TR k' i). rewrite RK in TR. cbn [ref] in TR. specialize (IC i). unfold count_of in *. cbn [l_heap now] in *.
      pose proof (total_replace _ (ptr i) _ v _ p V). lia.
    * apply (tasks_after s _ t k' L).
      -- assert (BK : back_ok (now t k' (Life (l_heap s) (replace_nth v p (l_vars s)) (l_table s) (l_doing s))) back).
         { destruct B as [-> | [-> PN]]; [exact Logic.I|]. destruct p as [j|]; [|congruence]. exists j. cbn [now l_vars].
           apply nth_error_replace_same. exact LV. }
         unfold k'. destruct old as [i|]; [exact BK | apply ok_check; exact BK].
      -- intros u k N U. apply (ok_kept s); auto; [apply (IT u k U) | cbn [now l_vars]; apply replace_len|].
         intros w W. cbn [now l_vars]. apply nth_error_replace_other. intros <-. apply NM. exists t, u, (Storing v p back), k, v.
         repeat split; auto.
    * exists leaked. split; auto. intros x. specialize (TD k' x). rewrite DK in TD. cbn [task_ds] in TD. rewrite IF. lia.
    * exact IN.
  - (* Releasing *)
    assert (C1 : (1 <= count_of s i)%nat).
    { rewrite IC. pose proof (total_le _ (ref i) _ t _ E) as H. cbn [ref] in H. rewrite ptr_same in H. lia. }
    destruct (counted_alive s i C1) as (g & n & A). rewrite A.
    set (k' := if (n =? 0)%nat then Closing i (map getSocketDescriptor g) back else then_check back).
    assert (RK : forall j, ref j k' = 0%nat) by (intros j; unfold k'; destruct (n =? 0)%nat; [reflexivity | apply ref_check]).
    constructor; cbn [now l_heap l_vars l_table l_doing].
    * intros j. specialize (TR k' j). rewrite RK in TR. cbn [ref] in TR. specialize (IC j). unfold count_of in *. cbn [l_heap now] in *.
      destruct (Nat.eq_dec i j) as [<- | N].
      -- rewrite nth_error_replace_same by (apply nth_error_Some; congruence). rewrite A in IC. rewrite ptr_same in TR. cbn [c_uses] in *. lia.
      -- rewrite nth_error_replace_other by exact N. rewrite ptr_other in TR by congruence. lia.
    * apply (tasks_after s _ t k' L).
      -- assert (BK : back_ok (now t k' (Life (replace_nth i (Cell g n) (l_heap s)) (l_vars s) (l_table s) (l_doing s))) back) by exact OK.
         unfold k'. destruct (n =? 0)%nat; [exact BK | apply ok_check; exact BK].
      -- intros u k _ U. apply (ok_kept s); auto; [apply (IT u k U) | cbn [now l_heap]; rewrite replace_len; auto|].
         intros j _. unfold now. cbn [l_heap l_vars l_table l_doing]. destruct s as [hp vs tb dn]. cbn [l_heap l_vars l_table l_doing] in *.
         unfold group_at. cbn [l_heap]. apply (group_replace i g (S n) n hp vs tb dn j A).
    * exists leaked. split; auto. intros x. specialize (TD k' x). cbn [task_ds] in TD. change (occ x []) with 0%nat in TD.
      pose proof (total_replace _ (fun c => occ x (cell_ds c)) _ i _ (Cell g n) A) as H. cbn beta in H. rewrite IF.
      assert (DK : (occ x (task_ds k') + occ x (cell_ds (Cell g n)) = occ x (cell_ds (Cell g (S n))))%nat).
      { unfold k'. destruct n as [|n]; cbn [Nat.eqb]; [cbn [task_ds cell_ds]; change (occ x []) with 0%nat; lia|].
        rewrite ds_check. cbn [cell_ds]. change (occ x []) with 0%nat. lia. }
      lia.
    * exact IN.
  - (* Closing, over *)
    apply (inv_now live s t (Closing i [] back)); auto; [intros; apply ref_check | intros; rewrite ds_check; reflexivity | apply ok_check; exact OK].
  - (* Closing *)
    assert (DT : In d (l_table s)) by (apply (task_in_table live s t _ d I E); left; reflexivity).
    set (k' := Closing i ds back).
    constructor; cbn [now l_heap l_vars l_table l_doing].
    * intros j. specialize (TR k' j). cbn [ref k'] in TR. specialize (IC j). unfold count_of in *. cbn [l_heap now]. fold k' in TR. lia.
    * apply (tasks_after s _ t k' L); [exact OK|]. intros u k _ U. apply (ok_kept s); auto. apply (IT u k U).
    * exists leaked. split; auto. intros x. specialize (TD k' x). cbn [task_ds k'] in TD. fold k' in TD. rewrite occ_cons in TD.
      pose proof (occ_remove x d (l_table s) IN DT). rewrite IF in H. lia.
    * apply NoDup_remove_all. exact IN.
  - (* Checking *)
    destruct OK as (i & V). rewrite V. destruct (counted_alive s i (pointer_counts live s v i I V)) as (g & n & A). unfold alive. rewrite A.
    apply (inv_now live s t (Checking v)); auto. exact Logic.I.
Qed.

(** ** Executions *)
Lemma total_repeat : forall A (f : A -> nat) x n, f x = 0%nat -> total f (repeat x n) = 0%nat.
Proof. intros. apply total_zero. apply Forall_forall. intros y Y. apply repeat_spec in Y. subst y. exact H. Qed.

Lemma inv_start : forall live vars threads, NoDup live -> Inv live (life_start live vars threads).
Proof.
  intros live vars threads ND. unfold life_start. constructor; cbn [l_heap l_vars l_table l_doing].
  - intros i. rewrite !total_repeat by reflexivity. unfold count_of. cbn [l_heap]. destruct i; reflexivity.
  - intros t k E. apply nth_error_In in E. apply repeat_spec in E. subst k. exact Logic.I.
  - exists []. split; [constructor|]. intros d. rewrite total_repeat by reflexivity. unfold total. cbn. lia.
  - exact ND.
Qed.

Lemma step_inv : forall live s a, Inv live s -> ~ meddling s -> allowed_act a s ->
  match life_step a s with Some UB => False | Some (Ret s') => Inv live s' | None => True end.
Proof.
  intros live s [t o|t] I NM AL; cbn [life_step].
  - destruct (nth_error (l_doing s) t) as [k|] eqn:E; [|exact Logic.I]. destruct k; try exact Logic.I.
    apply (inv_begin live s t o I E AL).
  - destruct (nth_error (l_doing s) t) as [k|] eqn:E; [|exact Logic.I]. apply (inv_go live s t k I E NM).
Qed.

Lemma lives_inv : forall live vars threads s, NoDup live -> lives considerate live vars threads s -> Inv live s.
Proof.
  intros live vars threads s ND H. induction H as [|s a s' H IH NM AL E]; [apply inv_start; exact ND|].
  pose proof (step_inv live s a IH NM AL) as Q. rewrite E in Q. exact Q.
Qed.

(** ** What the invariant says *)
Lemma held_groups_occ : forall d s, occ d (held_by_groups s) = total (fun c => occ d (cell_ds c)) (l_heap s).
Proof. intros. apply occ_flat_map. Qed.
Lemma held_tasks_occ : forall d s, occ d (held_by_tasks s) = total (fun k => occ d (task_ds k)) (l_doing s).
Proof. intros. apply occ_flat_map. Qed.

Lemma inv_sockets : forall live s, Inv live s -> NoDup (l_table s) /\ exists leaked, Forall (eq 0) leaked /\
  Permutation (l_table s) (live ++ leaked ++ held_by_groups s ++ held_by_tasks s).
Proof.
  intros live s I. split; [apply (I_nodup _ _ I)|]. destruct (I_fds _ _ I) as (leaked & Z0 & F). exists leaked. split; auto.
  apply (Permutation_count_occ Z.eq_dec). intros d. change (occ d (l_table s) = occ d (live ++ leaked ++ held_by_groups s ++ held_by_tasks s)).
  rewrite !occ_app, held_groups_occ, held_tasks_occ, F. lia.
Qed.

Lemma inv_acts : forall live s t k d, Inv live s -> nth_error (l_doing s) t = Some k -> acts_on k = Some d -> In d (l_table s).
Proof.
  intros live s t k d I E A. pose proof (I_tasks _ _ I t k E) as OK.
  destruct k as [|v i [|x ds]|v past [|[x|x] todo] p|dst src i|v p back|i back|i [|x ds] back|v]; try discriminate A; injection A as ->.
  - destruct OK as (V & B & C). destruct (counted_alive s i (pointer_counts live s v i I V)) as (g & n & H).
    apply (cell_in_table live s i g n d I H). specialize (C d (or_introl eq_refl)). unfold group_at in C. rewrite H in C. exact C.
  - destruct OK as (LV & ds & zeros & R & _). destruct (prefix_replay past (Closed d) todo ds R) as (l & l' & R1 & R2 & _).
    apply (task_in_table live s t _ d I E). cbn [task_ds]. rewrite R1. cbn [replay] in R2.
    destruct (existsb (Z.eqb d) l) eqn:X; [|discriminate]. apply existsb_In. exact X.
  - apply (task_in_table live s t _ d I E). left. reflexivity.
Qed.

(** A call's group lives, and nobody closes its sockets. *)
Lemma inv_calling : forall live s t v i ds, Inv live s -> nth_error (l_doing s) t = Some (Calling v i ds) ->
  exists g n, nth_error (l_heap s) i = Some (Cell g (S n)) /\
    forall d, In d ds -> In d (map getSocketDescriptor g).
Proof.
  intros live s t v i ds I E. destruct (I_tasks _ _ I t _ E) as (V & B & C).
  destruct (counted_alive s i (pointer_counts live s v i I V)) as (g & n & H). exists g, n. split; auto.
  intros d D. specialize (C d D). unfold group_at in C. rewrite H in C. exact C.
Qed.

Lemma inv_disjoint : forall live s d, Inv live s -> (occ d live + occ d (held_by_groups s) + occ d (held_by_tasks s) <= 1)%nat.
Proof.
  intros live s d I. destruct (I_fds _ _ I) as (leaked & Z0 & F). pose proof (proj1 (nodup_occ _) (I_nodup _ _ I) d) as N.
  rewrite F in N. rewrite held_groups_occ, held_tasks_occ. lia.
Qed.

Lemma filter_total : forall i l, length (List.filter (fun p : option nat => match p with Some j => (j =? i)%nat | None => false end) l) = total (ptr i) l.
Proof.
  intros i. induction l as [|p l IH]; auto. unfold total in *. simpl. destruct p as [j|]; simpl; auto.
  destruct (j =? i)%nat; simpl; auto.
Qed.

Lemma inv_rest : forall live s, Inv live s -> at_rest s ->
  (forall i, count_of s i = pointers_to s i) /\ held_by_tasks s = [].
Proof.
  intros live s I R. split.
  - intros i. rewrite (I_count _ _ I). unfold pointers_to. rewrite filter_total.
    rewrite (total_zero _ (ref i) (l_doing s)); [lia|]. eapply Forall_impl; [|exact R]. intros k <-. reflexivity.
  - unfold held_by_tasks. unfold at_rest in R. induction (l_doing s) as [|k l IH]; auto. inversion R; subst. simpl. auto.
Qed.

(** ** Storing into the last pointer to a group that is being used *)
Lemma last_pointer_lost : forall s t u v p back j i g, t <> u -> nth_error (l_doing s) t = Some (Storing v p back) -> nth_error (l_doing s) u = Some j ->
  (j = Calling v i (match j with Calling _ _ ds => ds | _ => [] end) \/ exists dst, j = Retaining dst v i) ->
  nth_error (l_vars s) v = Some (Some i) -> nth_error (l_heap s) i = Some (Cell g 1) ->
  goes_wrong [Go t; Go t; Go u] s.
Proof.
  intros s t u v p back j i g N T U J V H.
  assert (LT : (t < length (l_doing s))%nat) by (apply nth_error_Some; congruence).
  cbn [goes_wrong allowed_act]. split; [exact Logic.I|]. cbn [life_step]. rewrite T. cbn [go]. rewrite V. split; [exact Logic.I|].
  set (s1 := now t (Releasing i back) _).
  assert (T1 : nth_error (l_doing s1) t = Some (Releasing i back)) by (apply nth_error_replace_same; exact LT).
  assert (U1 : nth_error (l_doing s1) u = Some j) by (unfold s1; cbn [now l_doing]; rewrite nth_error_replace_other by exact N; exact U).
  assert (H1 : nth_error (l_heap s1) i = Some (Cell g 1)) by exact H.
  clearbody s1. cbn [life_step]. rewrite T1. cbn [go]. rewrite H1. cbn [Nat.eqb]. split; [exact Logic.I|].
  set (s2 := now t (Closing i _ back) _).
  assert (U2 : nth_error (l_doing s2) u = Some j) by (unfold s2; cbn [now l_doing]; rewrite nth_error_replace_other by exact N; exact U1).
  assert (H2 : nth_error (l_heap s2) i = Some (Cell g 0))
    by (unfold s2; cbn [now l_heap]; apply nth_error_replace_same; apply nth_error_Some; congruence).
  clearbody s2. cbn [life_step]. rewrite U2. destruct J as [-> | (dst & ->)]; cbn [go].
  - unfold alive. rewrite H2. exact Logic.I.
  - rewrite H2. exact Logic.I.
Qed.

Lemma dropped_under_start : forall s t u v back, t <> u ->
  nth_error (l_doing s) t = Some (Storing v None back) -> nth_error (l_doing s) u = Some (Checking v) -> (v < length (l_vars s))%nat ->
  goes_wrong [Go t; Go u] s.
Proof.
  intros s t u v back N T U LV. cbn [goes_wrong allowed_act]. split; [exact Logic.I|]. cbn [life_step]. rewrite T. cbn [go].
  destruct (nth_error (l_vars s) v) as [old|] eqn:V; [|apply nth_error_None in V; lia]. split; [exact Logic.I|].
  cbn [life_step now l_doing]. rewrite nth_error_replace_other by exact N. rewrite U. cbn [go l_vars].
  unfold now. cbn [l_vars]. rewrite nth_error_replace_same by exact LV. exact Logic.I.
Qed.

(** What is being closed is nobody else's. *)
Lemma total_one : forall A (f : A -> nat) l t a, nth_error l t = Some a -> (f a <= total f l)%nat.
Proof.
  intros A f. induction l as [|x l IH]; intros [|t] a E; try discriminate; simpl in *; unfold total in *; simpl.
  - injection E as ->. lia.
  - specialize (IH t a E). lia.
Qed.

Lemma inv_closing : forall live s t i ds back d, Inv live s -> nth_error (l_doing s) t = Some (Closing i ds back) -> In d ds ->
  ~ In d live /\ ~ In d (held_by_groups s) /\
  forall u j, u <> t -> nth_error (l_doing s) u = Some j -> acts_on j <> Some d.
Proof.
  intros live s t i ds back d I T D. pose proof (inv_disjoint live s d I) as O. rewrite held_groups_occ, held_tasks_occ in O.
  assert (TD : (1 <= occ d ds)%nat) by (apply occ_in; exact D).
  pose proof (total_one _ (fun k => occ d (task_ds k)) _ t _ T) as T1. cbn [task_ds] in T1.
  split; [|split].
  - rewrite occ_in. lia.
  - rewrite occ_in, held_groups_occ. lia.
  - intros u j N U A. pose proof (total_two _ (fun k => occ d (task_ds k)) _ u t _ _ N U T) as T2. cbn [task_ds] in T2.
    pose proof (I_tasks _ _ I u j U) as OK.
    destruct j as [|v k [|x cs]|v past [|[x|x] todo] p|dst src k|v p b|k b|k [|x cs] b|v]; try discriminate A; injection A as ->.
    + destruct OK as (V & B & C). destruct (counted_alive s k (pointer_counts live s v k I V)) as (g & n & H).
      specialize (C d (or_introl eq_refl)). unfold group_at in C. rewrite H in C.
      pose proof (total_one _ (fun c => occ d (cell_ds c)) _ k _ H) as T3. cbn [cell_ds] in T3. apply occ_in in C. lia.
    + destruct OK as (LV & es & zeros & R & _). destruct (prefix_replay past (Closed d) todo es R) as (l & l' & R1 & R2 & _).
      cbn [task_ds] in T2. rewrite R1 in T2. cbn [replay] in R2.
      destruct (existsb (Z.eqb d) l) eqn:X; [|discriminate]. apply existsb_In in X. apply occ_in in X. lia.
    + cbn [task_ds] in T2. assert (Q : (1 <= occ d (d :: cs))%nat) by (apply occ_in; left; reflexivity). lia.
Qed.

(** ** No thread waits for another *)
Lemma progress : forall live s t k, Inv live s -> considerate s -> nth_error (l_doing s) t = Some k -> k <> Idle ->
  (forall d, awaits k = Some d -> ~ In d (l_table s)) -> exists s', life_step (Go t) s = Some (Ret s').
Proof.
  intros live s t k I C T N A. pose proof (inv_go live s t k I T C) as Q. cbn [life_step]. rewrite T.
  destruct (go t k s) as [[s'|]|] eqn:G; [eauto|contradiction|]. exfalso. clear Q.
  destruct k as [|v i ds|v past todo p|dst src i|v p back|i back|i ds back|v]; [congruence|..]; cbn [go] in G.
  - destruct (alive s i); discriminate.
  - destruct todo as [|[d|d] todo]; [destruct p; discriminate| |discriminate].
    destruct (is_open d s) eqn:O; [|discriminate]. apply (A d eq_refl). apply existsb_In. exact O.
  - destruct (nth_error (l_heap s) i) as [[g [|n]]|]; discriminate.
  - destruct (nth_error (l_vars s) v); discriminate.
  - destruct (nth_error (l_heap s) i) as [[g [|n]]|]; discriminate.
  - destruct ds; discriminate.
  - destruct (nth_error (l_vars s) v) as [[i|]|]; try discriminate. destruct (alive s i); discriminate.
Qed.

Lemma step_others : forall a s s' u, life_step a s = Some (Ret s') -> (forall o, a <> Begin u o) -> a <> Go u ->
  nth_error (l_doing s') u = nth_error (l_doing s) u.
Proof.
  intros a s s' u E B G. assert (K : exists t k h vs tb, t <> u /\ s' = now t k (Life h vs tb (l_doing s))).
  { destruct a as [t o|t]; cbn [life_step] in E.
    - assert (N : t <> u) by (intros ->; apply (B o); reflexivity).
      destruct (nth_error (l_doing s) t) as [[]|]; try discriminate. destruct o; cbn [begin] in E;
      repeat match type of E with context [match ?x with _ => _ end] => destruct x; try discriminate end; injection E as <-;
      eexists t, _, (l_heap s), (l_vars s), (l_table s); split; try exact N; reflexivity.
    - assert (N : t <> u) by (intros ->; apply G; reflexivity).
      destruct (nth_error (l_doing s) t) as [k|]; [|discriminate].
      destruct k; cbn [go] in E;
      repeat match type of E with context [match ?x with _ => _ end] => destruct x; try discriminate end; try discriminate; injection E as <-;
      eexists t, _, _, _, _; (split; [exact N|]); reflexivity. }
  destruct K as (t & k & h & vs & tb & N & ->). cbn [now l_doing]. apply nth_error_replace_other. exact N.
Qed.

Definition rank (k : task) : nat :=
  match k with Idle => 0 | Checking _ => 1 | Calling _ _ _ => 1 | Closing _ _ _ => 2 | Releasing _ _ => 3 | Storing _ _ _ => 4 | Retaining _ _ _ => 5 | Starting _ _ _ _ => 5 end.
Definition left_ (k : task) : nat :=
  match k with Calling _ _ ds => length ds | Closing _ ds _ => length ds | Starting _ _ todo _ => length todo | _ => 0 end.

Lemma own_step : forall t k s s', nth_error (l_doing s) t = Some k -> go t k s = Some (Ret s') ->
  exists k', nth_error (l_doing s') t = Some k' /\ ((rank k' < rank k)%nat \/ rank k' = rank k /\ (left_ k' < left_ k)%nat).
Proof.
  intros t k s s' T E. assert (L : (t < length (l_doing s))%nat) by (apply nth_error_Some; congruence).
  assert (K : exists k' h vs tb, s' = now t k' (Life h vs tb (l_doing s)) /\ ((rank k' < rank k)%nat \/ rank k' = rank k /\ (left_ k' < left_ k)%nat)).
  { destruct k as [|v i ds|v past todo p|dst src i|v p back|i back|i ds back|v]; cbn [go] in E.
    - discriminate.
    - destruct (alive s i); [|discriminate]. injection E as <-. destruct ds as [|d ds]; eexists _, (l_heap s), (l_vars s), (l_table s); (split; [reflexivity|]); cbn; lia.
    - destruct todo as [|[d|d] todo].
      + destruct p as [g|]; injection E as <-; [|eexists _, (l_heap s), (l_vars s), (l_table s); split; [reflexivity|cbn; lia]].
        eexists _, _, _, _. split; [reflexivity|cbn; lia].
      + destruct (is_open d s); [discriminate|]. injection E as <-. eexists _, _, _, _. split; [reflexivity|cbn; lia].
      + injection E as <-. eexists _, _, _, _. split; [reflexivity|cbn; lia].
    - destruct (nth_error (l_heap s) i) as [[g [|n]]|]; try discriminate. injection E as <-. eexists _, _, _, _. split; [reflexivity|cbn; lia].
    - destruct (nth_error (l_vars s) v) as [old|]; [|discriminate]. injection E as <-. eexists _, _, _, _. split; [reflexivity|].
      destruct old; [cbn; lia|]. destruct back; cbn; lia.
    - destruct (nth_error (l_heap s) i) as [[g [|n]]|]; try discriminate. injection E as <-. eexists _, _, _, _. split; [reflexivity|].
      destruct (n =? 0)%nat; [cbn; lia|]. destruct back; cbn; lia.
    - destruct ds as [|d ds]; injection E as <-.
      + eexists _, (l_heap s), (l_vars s), (l_table s). split; [reflexivity|]. destruct back; cbn; lia.
      + eexists _, _, _, _. split; [reflexivity|cbn; lia].
    - destruct (nth_error (l_vars s) v) as [[i|]|]; try discriminate. destruct (alive s i); [|discriminate]. injection E as <-.
      eexists _, (l_heap s), (l_vars s), (l_table s). split; [reflexivity|cbn; lia]. }
  destruct K as (k' & h & vs & tb & -> & D). exists k'. split; [|exact D]. cbn [now l_doing]. apply nth_error_replace_same. exact L.
Qed.

Lemma search : forall (P : nat -> Prop), (forall j, P j \/ ~ P j) -> forall n i, (exists j, (n <= j < i)%nat /\ P j) \/ forall j, (n <= j < i)%nat -> ~ P j.
Proof.
  intros P Dec n. induction i as [|i IHi]; [right; lia|]. destruct IHi as [(j & L & G)|F]; [left; exists j; split; [lia|exact G]|].
  destruct (Dec i) as [G|G]; [|right; intros j L; destruct (Nat.eq_dec j i) as [-> | NE]; [exact G|apply F; lia]].
  destruct (Nat.le_gt_cases n i); [left; exists i; split; [lia|exact G]|right; intros j L; lia].
Qed.

Lemma ends : forall t r l n s a, endless s a -> (forall m, exists i, (m <= i)%nat /\ a i = Go t) ->
  (forall k, nth_error (l_doing (s n)) t = Some k -> (rank k < r)%nat \/ rank k = r /\ (left_ k < l)%nat) ->
  exists m, (n <= m)%nat /\ nth_error (l_doing (s m)) t = Some Idle.
Proof.
  intros t. induction r as [r IHr] using (well_founded_induction lt_wf). induction l as [l IHl] using (well_founded_induction lt_wf).
  intros n s a E H M.
  assert (DG : forall j, a j = Go t \/ a j <> Go t)
    by (intros j; destruct (a j) as [u o|u]; [right; discriminate|]; destruct (Nat.eq_dec u t); [left|right]; congruence).
  assert (DI : forall j, nth_error (l_doing (s j)) t = Some Idle \/ nth_error (l_doing (s j)) t <> Some Idle)
    by (intros j; destruct (nth_error (l_doing (s j)) t) as [[]|]; auto; right; discriminate).
  assert (W : exists i, (n <= i)%nat /\ a i = Go t /\ forall j, (n <= j < i)%nat -> a j <> Go t).
  { destruct (H n) as (i & Li & Ei). revert Li Ei. induction i as [i IH] using (well_founded_induction lt_wf). intros Li Ei.
    destruct (search (fun j => a j = Go t) DG n i) as [(j & L & G)|F]; [apply (IH j); auto; lia|exists i; auto]. }
  destruct W as (i & Li & G & F).
  destruct (search (fun j => nth_error (l_doing (s j)) t = Some Idle) DI n (S i)) as [(j & L & Q)|NI]; [exists j; split; [lia|exact Q]|].
  assert (K : forall j, (n <= j <= i)%nat -> nth_error (l_doing (s j)) t = nth_error (l_doing (s n)) t).
  { induction j as [|j IHj]; intros L; [assert (n = 0%nat) by lia; subst; reflexivity|].
    destruct (Nat.eq_dec n (S j)) as [-> | NE]; [reflexivity|]. rewrite <- IHj by lia.
    apply (step_others (a j) (s j) (s (S j)) t (E j)); [|apply F; lia]. intros o B. pose proof (E j) as Q. rewrite B in Q. cbn [life_step] in Q.
    destruct (nth_error (l_doing (s j)) t) as [[]|] eqn:T; try discriminate. exact (NI j ltac:(lia) T). }
  pose proof (E i) as Q. rewrite G in Q. cbn [life_step] in Q. destruct (nth_error (l_doing (s i)) t) as [k|] eqn:T; [|discriminate].
  destruct (own_step t k (s i) (s (S i)) T Q) as (k' & T' & D). rewrite (K i) in T by lia. specialize (M k T).
  assert (X : (rank k' < r)%nat \/ rank k' = r /\ (left_ k' < l)%nat /\ (left_ k' < left_ k)%nat) by lia.
  assert (R : exists m, (S i <= m)%nat /\ nth_error (l_doing (s m)) t = Some Idle).
  { destruct X as [X|(X & Y & Z0)].
    - apply (IHr (rank k') ltac:(lia) (S (left_ k')) (S i) s a E H). intros k2 T2. rewrite T' in T2. injection T2 as <-. lia.
    - apply (IHl (left_ k) ltac:(lia) (S i) s a E H). intros k2 T2. rewrite T' in T2. injection T2 as <-. lia. }
  destruct R as (m & L & R). exists m. split; [lia|exact R].
Qed.

Lemma operations_end : forall s a t, endless s a -> (forall m, exists i, (m <= i)%nat /\ a i = Go t) ->
  forall n, exists m, (n <= m)%nat /\ nth_error (l_doing (s m)) t = Some Idle.
Proof.
  intros s a t E H n.
  apply (ends t 6 0 n s a E H). intros k _. left. destruct k; cbn; lia.
Qed.
