(** Proofs about the array of select (PollModel.v). *)
From Coq Require Import ZArith Bool List Lia Arith.
From Verif Require Import Outcome ResultModel CInt SatMathModel TimeModel CanFrameModel SocketCanModel GroupModel PollModel PollSpec.
Import ListNotations.
Open Scope Z_scope.

Lemma replace_mid : forall A (pre : list A) x y post, replace_nth (length pre) x (pre ++ y :: post) = pre ++ x :: post.
Proof. intros A pre x y post. induction pre as [|h t IH]; cbn; [reflexivity|]. now rewrite IH. Qed.

Lemma nth_mid : forall A (pre : list A) y post, nth_error (pre ++ y :: post) (length pre) = Some y.
Proof. intros A pre y post. induction pre as [|h t IH]; cbn; auto. Qed.

Lemma put_mid : forall pre y post z c,
  put Storage (PVec (pre ++ y :: post) z) (length pre) c = Ret (PVec (pre ++ Some c :: post) z).
Proof.
  intros pre y post z c. unfold put. cbn [reach pv_cells pv_size].
  replace (length pre <? length (pre ++ y :: post))%nat with true.
  - now rewrite replace_mid.
  - symmetry. apply Nat.ltb_lt. rewrite app_length. cbn. lia.
Qed.

Lemma get_mid : forall pre c post z, get Storage (PVec (pre ++ Some c :: post) z) (length pre) = Ret c.
Proof.
  intros pre c post z. unfold get. cbn [reach pv_cells].
  replace (length pre <? length (pre ++ Some c :: post))%nat with true.
  - now rewrite nth_mid.
  - symmetry. apply Nat.ltb_lt. rewrite app_length. cbn. lia.
Qed.

Lemma snoc_len : forall A (pre : list A) x, length (pre ++ [x]) = S (length pre).
Proof. intros. rewrite app_length. cbn. lia. Qed.

Lemma snoc_app : forall A (pre : list A) x post, (pre ++ [x]) ++ post = pre ++ x :: post.
Proof. intros. now rewrite <- app_assoc. Qed.

Definition entry (ev : Z) (s : iface) : pollfd := Pollfd (getSocketDescriptor s) ev 0.

Lemma fill_ok : forall ev g pre mid post z, length mid = length g ->
  fill Storage (PVec (pre ++ mid ++ post) z) (length pre) ev g = Ret (PVec (pre ++ map Some (map (entry ev) g) ++ post) z).
Proof.
  intros ev g. induction g as [|s g IH]; intros pre mid post z L.
  - destruct mid; [reflexivity|discriminate].
  - destruct mid as [|m mid]; [discriminate|]. cbn [fill map app]. rewrite put_mid. cbn [bind].
    rewrite <- snoc_app, <- (snoc_len _ pre (Some (Pollfd (getSocketDescriptor s) ev 0))).
    rewrite IH by (cbn in L; lia). now rewrite snoc_app.
Qed.

Lemma fetch_ok : forall cs pre post z,
  fetch (PVec (pre ++ map Some cs ++ post) z) (length pre) (length cs) = Ret (map (fun c => (pl_fd c, pl_events c)) cs).
Proof.
  induction cs as [|c cs IH]; intros pre post z; [reflexivity|].
  cbn [length fetch map app]. rewrite get_mid. cbn [bind].
  rewrite <- snoc_app, <- (snoc_len _ pre (Some c)), IH. reflexivity.
Qed.

Fixpoint answered (cs : list pollfd) (rvs : list Z) : list pollfd :=
  match cs, rvs with
  | c :: cs', rv :: rvs' => Pollfd (pl_fd c) (pl_events c) rv :: answered cs' rvs'
  | _, _ => cs
  end.

Lemma answered_length : forall cs rvs, length (answered cs rvs) = length cs.
Proof. induction cs as [|c cs IH]; intros [|rv rvs]; cbn; auto. Qed.

Lemma answer_ok : forall cs rvs pre post z,
  answer_cells (PVec (pre ++ map Some cs ++ post) z) (length pre) (length cs) rvs =
  Ret (PVec (pre ++ map Some (answered cs rvs) ++ post) z).
Proof.
  induction cs as [|c cs IH]; intros [|rv rvs] pre post z; try reflexivity.
  cbn [length answer_cells map app answered]. rewrite get_mid. cbn [bind]. rewrite put_mid. cbn [bind].
  rewrite <- snoc_app, <- (snoc_len _ pre (Some (Pollfd (pl_fd c) (pl_events c) rv))), IH. now rewrite snoc_app.
Qed.

Definition bad (rv : Z) : bool := has rv (Z.lor POLLPRI (Z.lor POLLERR (Z.lor POLLHUP POLLNVAL))).

Lemma scan_ok : forall cs pre post z,
  scan Storage (PVec (pre ++ map Some cs ++ post) z) (length pre) (length cs) =
  Ret (if existsb (fun c => bad (pl_revents c)) cs then SuccessPartial else Success).
Proof.
  induction cs as [|c cs IH]; intros pre post z; [reflexivity|].
  cbn [length scan map app existsb]. rewrite get_mid. cbn [bind]. fold (bad (pl_revents c)).
  destruct (bad (pl_revents c)); [reflexivity|]. cbn [orb].
  rewrite <- snoc_app, <- (snoc_len _ pre (Some c)). apply IH.
Qed.

Lemma bad_answered : forall ev g rvs,
  existsb (fun c => bad (pl_revents c)) (answered (map (entry ev) g) rvs) = existsb bad (firstn (length g) rvs).
Proof.
  intros ev g. induction g as [|s g IH]; intros [|rv rvs]; cbn [map answered existsb length firstn]; try reflexivity.
  - cbn. clear IH. induction g as [|s' g IH]; [reflexivity|exact IH].
  - cbn [pl_revents]. now rewrite IH.
Qed.

(** With enough storage the call is that of GroupModel.v. *)
Lemma select_stored : forall P mem ppoll g t ignore cells,
  (length g <= length cells)%nat ->
  select P ppoll g t ignore <> UB ->
  exists r req cells', select P ppoll g t ignore = Ret (r, req) /\
    select_mem P Storage mem ppoll g t ignore (PVec cells 0) = Ret (Returned r req, PVec cells' 0, false) /\
    length cells' = length cells.
Proof.
  intros P mem ppoll g t ignore cells L U.
  rewrite <- (firstn_skipn (length g) cells).
  set (mid := firstn (length g) cells). set (post := skipn (length g) cells).
  assert (ML : length mid = length g) by (unfold mid; now apply firstn_length_le).
  clearbody mid post. unfold select_mem. unfold select in *.
  unfold reserve. cbn [pv_cells].
  replace (length g <=? length (mid ++ post))%nat with true
    by (symmetry; apply Nat.leb_le; rewrite app_length; lia).
  cbn zeta in *. set (ev := if negb ignore then Z.lor (Z.lor POLLIN POLLPRI) POLLOUT else Z.lor POLLIN POLLPRI) in *.
  clearbody ev.
  pose proof (fill_ok ev g [] mid post 0%nat ML) as F. cbn [app length] in F. rewrite F. cbn [bind].
  destruct (dur_sub P 64 t (Z.quot t 1000000 * 1000000)) as [nsec|]; cbn [bind] in *; [|congruence].
  pose proof (fetch_ok (map (entry ev) g) [] post 0%nat) as G. cbn [app length] in G.
  rewrite map_length in G. rewrite G. cbn [bind]. rewrite map_map in *. cbn [entry pl_fd pl_events] in *.
  set (req := PollRequest (map (fun s => (getSocketDescriptor s, ev)) g) (Z.quot t 1000000) nsec) in *.
  clearbody req. clear U. destruct (ppoll req) as [res rvs].
  destruct (Z.ltb_spec res 0) as [N|N]; cbn [bind].
  - replace (res =? 0) with false by (symmetry; apply Z.eqb_neq; lia).
    exists Failure, req, (map Some (map (entry ev) g) ++ post). split; [reflexivity|]. split.
    + reflexivity.
    + rewrite !app_length, !map_length. lia.
  - pose proof (answer_ok (map (entry ev) g) rvs [] post 0%nat) as A. cbn [app length] in A.
    rewrite map_length in A. rewrite A. cbn [bind].
    destruct (Z.eqb_spec res 0) as [Z0|Z0].
    + exists SuccessTimeout, req, (map Some (answered (map (entry ev) g) rvs) ++ post). split; [reflexivity|].
      split; [reflexivity|]. rewrite !app_length, map_length, answered_length, map_length. lia.
    + pose proof (scan_ok (answered (map (entry ev) g) rvs) [] post 0%nat) as S. cbn [app length] in S.
      rewrite answered_length, map_length in S. rewrite S. cbn [bind]. rewrite bad_answered.
      exists (if existsb bad (firstn (length g) rvs) then SuccessPartial else Success), req,
        (map Some (answered (map (entry ev) g) rvs) ++ post).
      split; [destruct (existsb bad (firstn (length g) rvs)) eqn:B; unfold bad in B; rewrite B; reflexivity|]. split; [reflexivity|].
      rewrite !app_length, map_length, answered_length, map_length. lia.
Qed.

Lemma select_fresh : forall P k ppoll g t ignore cells,
  (length cells < length g)%nat ->
  select P ppoll g t ignore <> UB ->
  exists r req cells', select P ppoll g t ignore = Ret (r, req) /\
    select_mem P Storage (Some k) ppoll g t ignore (PVec cells 0) = Ret (Returned r req, PVec cells' 0, true) /\
    (length g <= length cells')%nat.
Proof.
  intros P k ppoll g t ignore cells L U.
  set (c1 := repeat (@None pollfd) (Nat.max (length g) k - 0)).
  assert (L1 : (length g <= length c1)%nat) by (unfold c1; rewrite repeat_length; lia).
  destruct (select_stored P (Some k) ppoll g t ignore c1 L1 U) as (r & req & c' & S & M & L').
  exists r, req, c'. split; [exact S|]. split; [|lia].
  unfold select_mem in *. unfold reserve in *. cbn [pv_cells pv_size] in *.
  replace (length g <=? length c1)%nat with true in M by (symmetry; apply Nat.leb_le; lia).
  replace (length g <=? length cells)%nat with false by (symmetry; apply Nat.leb_gt; lia).
  cbn [firstn app]. fold c1. cbn zeta in *.
  revert M. destruct (fill _ _ _ _ _) as [v2|]; cbn [bind]; [|congruence].
  destruct (dur_sub _ _ _ _) as [nsec|]; cbn [bind]; [|congruence].
  destruct (fetch _ _ _) as [fds|]; cbn [bind]; [|congruence].
  destruct (ppoll _) as [res rvs].
  destruct (if res <? 0 then _ else _) as [v3|]; cbn [bind]; [|congruence].
  destruct (res =? 0); [congruence|]. destruct (res <? 0); [congruence|].
  destruct (scan _ _ _ _) as [q|]; cbn [bind]; congruence.
Qed.

Lemma select_nomem : forall P rl ppoll g t ignore cells z,
  (length cells < length g)%nat ->
  select_mem P rl None ppoll g t ignore (PVec cells z) = Ret (Thrown, PVec cells z, true).
Proof.
  intros P rl ppoll g t ignore cells z L. unfold select_mem, reserve. cbn [pv_cells].
  now replace (length g <=? length cells)%nat with false by (symmetry; apply Nat.leb_gt; lia).
Qed.

Lemma history_stored : forall P g calls cells, (length g <= length cells)%nat ->
  Forall (fun c => select P (sc_ppoll c) g (sc_timeout c) (sc_ignore c) <> UB) calls ->
  exists es v, select_history P Storage g calls (PVec cells 0) = Ret (es, v, O) /\
    Forall2 (answers_as P g) calls es.
Proof.
  intros P g calls. induction calls as [|c calls IH]; intros cells L F.
  - exists [], (PVec cells 0). split; [reflexivity|constructor].
  - inversion F as [|? ? F1 F2]; subst.
    destruct (select_stored P (sc_mem c) _ _ _ _ cells L F1) as (r & req & c' & S & M & L').
    destruct (IH c' ltac:(lia) F2) as (es & v & H & A).
    exists (Returned r req :: es), v. cbn [select_history]. rewrite M. cbn [bind]. rewrite H. cbn [bind].
    split; [reflexivity|]. constructor; [exact S|exact A].
Qed.

Lemma history_storage : forall P g calls,
  Forall (fun c => select P (sc_ppoll c) g (sc_timeout c) (sc_ignore c) <> UB) calls ->
  forall cells, g <> [] -> (length cells < length g)%nat ->
  exists thrown served es v k, calls = thrown ++ served /\
    Forall (fun c => sc_mem c = None) thrown /\
    match served with [] => True | c :: _ => sc_mem c <> None end /\
    select_history P Storage g calls (PVec cells 0) = Ret (repeat Thrown (length thrown) ++ es, v, k) /\
    Forall2 (answers_as P g) served es /\
    k = (length thrown + match served with [] => 0 | _ => 1 end)%nat.
Proof.
  intros P g calls F. induction F as [|c calls F1 F2 IH]; intros cells G L.
  - exists [], [], [], (PVec cells 0), 0%nat. repeat split; auto.
  - destruct (sc_mem c) as [m|] eqn:M.
    + destruct (select_fresh P m _ _ _ _ cells L F1) as (r & req & c' & S & N & L').
      destruct (history_stored P g calls c' L' F2) as (es & v & H & A).
      exists [], (c :: calls), (Returned r req :: es), v, 1%nat.
      split; [reflexivity|]. split; [constructor|]. split; [rewrite M; discriminate|].
      cbn [select_history length repeat app]. rewrite M, N. cbn [bind]. rewrite H. cbn [bind].
      split; [reflexivity|]. split; [constructor; [exact S|exact A]|]. reflexivity.
    + destruct (IH cells G L) as (th & sv & es & v & k & -> & T & W & H & A & K).
      exists (c :: th), sv, es, v, (S k). split; [reflexivity|]. split; [constructor; auto|]. split; [exact W|].
      cbn [select_history length repeat app]. rewrite M, select_nomem by auto. cbn [bind]. rewrite H. cbn [bind].
      split; [reflexivity|]. split; [exact A|]. rewrite K. cbn. lia.
Qed.

Lemma select_elements : forall P mem ppoll g t ignore cells, g <> [] -> (mem <> None \/ (length g <= length cells)%nat) ->
  select_mem P Elements mem ppoll g t ignore (PVec cells 0) = UB.
Proof.
  intros P mem ppoll g t ignore cells G M. unfold select_mem, reserve. cbn [pv_cells pv_size].
  destruct g as [|s g]; [congruence|].
  destruct (Nat.leb_spec (length (s :: g)) (length cells)) as [L|L].
  - cbn [fill]. unfold put at 1. cbn [reach pv_size Nat.ltb Nat.leb bind]. reflexivity.
  - destruct mem as [k|]; [|destruct M as [M|M]; [congruence|lia]].
    cbn [fill]. unfold put at 1. cbn [reach pv_size Nat.ltb Nat.leb bind]. reflexivity.
Qed.

Lemma history_elements : forall P g calls cells, g <> [] -> (length cells < length g)%nat ->
  (select_history P Elements g calls (PVec cells 0) = UB <-> Exists (fun c => sc_mem c <> None) calls).
Proof.
  intros P g calls. induction calls as [|c calls IH]; intros cells G L; cbn [select_history].
  - split; [discriminate|]. intros E. inversion E.
  - destruct (sc_mem c) as [m|] eqn:M.
    + rewrite select_elements by (auto; left; discriminate). cbn [bind]. split; auto.
      intros _. apply Exists_cons_hd. rewrite M. discriminate.
    + rewrite select_nomem by auto. cbn [bind].
      assert (Q : (let* y := select_history P Elements g calls (PVec cells 0) in
                   let '(es, v'', k) := y in Ret (Thrown :: es, v'', S k)) = UB <->
                  select_history P Elements g calls (PVec cells 0) = UB).
      { destruct (select_history _ _ _ _ _) as [[[a b] d]|]; cbn [bind]; split; congruence. }
      rewrite Q, (IH cells G L). split; [apply Exists_cons_tl|]. intros E. inversion E as [? ? X|? ? X]; subst; auto. congruence.
Qed.

Lemma history_empty : forall P rl calls,
  Forall (fun c => select P (sc_ppoll c) [] (sc_timeout c) (sc_ignore c) <> UB) calls ->
  exists es, select_history P rl [] calls pvec_new = Ret (es, pvec_new, O) /\ Forall2 (answers_as P []) calls es.
Proof.
  intros P rl calls F. induction F as [|c calls F1 F2 (es & H & A)].
  - exists []. split; [reflexivity|constructor].
  - cbn [select_history].
    assert (S : exists r req, select P (sc_ppoll c) [] (sc_timeout c) (sc_ignore c) = Ret (r, req) /\
                select_mem P rl (sc_mem c) (sc_ppoll c) [] (sc_timeout c) (sc_ignore c) pvec_new = Ret (Returned r req, pvec_new, false)).
    { revert F1. unfold select, select_mem, reserve. cbn [length pv_cells pvec_new Nat.leb fill bind fetch map]. cbn zeta.
      destruct (dur_sub _ _ _ _) as [nsec|]; cbn [bind]; [|congruence]. intros _.
      match goal with |- context [sc_ppoll c ?q] => destruct (sc_ppoll c q) as [res rvs] end.
      replace (if res <? 0 then Ret pvec_new else answer_cells pvec_new 0 0 rvs)
        with (@Ret pvec pvec_new) by (destruct (res <? 0); reflexivity).
      cbn [bind scan firstn existsb].
      destruct (res =? 0); [do 2 eexists; split; reflexivity|]. destruct (res <? 0); do 2 eexists; split; reflexivity. }
    destruct S as (r & req & S & M). rewrite M. cbn [bind]. rewrite H. cbn [bind].
    exists (Returned r req :: es). split; [reflexivity|]. constructor; [exact S|exact A].
Qed.
