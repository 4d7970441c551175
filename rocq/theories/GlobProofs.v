(** Proofs for C168. *)
From Coq Require Import ZArith Bool Ascii String List Arith Lia.
From Verif Require Import ToolsModel GlobModel GlobSpec.
Import ListNotations.
Open Scope string_scope.
Open Scope list_scope.
Open Scope nat_scope.

(** ** Names *)
Lemma hidden_iff : forall n, hidden n = true <-> dotted n.
Proof.
  intros [|c n]; cbn [hidden].
  - split; [discriminate|]. intros [r E]. discriminate.
  - rewrite Ascii.eqb_eq. split; [intros ->; now exists n|]. intros [r E]. now injection E.
Qed.
Lemma list_ascii_app : forall a b, list_ascii_of_string (a ++ b)%string = list_ascii_of_string a ++ list_ascii_of_string b.
Proof. induction a; intros b; cbn; [reflexivity|]. now rewrite IHa. Qed.
Lemma magic_iff : forall n, has_magic n = true <-> wild n.
Proof.
  intros n. unfold has_magic. rewrite existsb_exists. split.
  - intros (c & I & H). apply in_split in I. destruct I as (a & b & E).
    exists (string_of_list_ascii a), c, (string_of_list_ascii b). split.
    + rewrite <- (string_of_list_ascii_of_string n), E. clear. induction a; cbn; [reflexivity|]. now rewrite IHa.
    + rewrite !orb_true_iff, !Ascii.eqb_eq in H. cbn. destruct H as [[-> | ->] | ->]; auto.
  - intros (a & c & b & -> & I). exists c. split.
    + rewrite list_ascii_app. apply in_app_iff. right. now left.
    + cbn in I. rewrite !orb_true_iff, !Ascii.eqb_eq. destruct I as [<- | [<- | [<- | []]]]; auto.
Qed.
Lemma not_magic_iff : forall n, has_magic n = false <-> ~ wild n.
Proof. intros n. rewrite <- magic_iff. destruct (has_magic n); split; congruence. Qed.
Lemma not_hidden_iff : forall n, hidden n = false <-> ~ dotted n.
Proof. intros n. rewrite <- hidden_iff. destruct (hidden n); split; congruence. Qed.

Lemma any_iff : forall cl ts n, matches cl (Any :: ts) n = true <-> exists a b, n = (a ++ b)%string /\ matches cl ts b = true.
Proof.
  intros cl ts n. induction n as [|c n IH].
  - change (matches cl ts "" || false = true <-> exists a b, "" = (a ++ b)%string /\ matches cl ts b = true). rewrite orb_false_r. split.
    + intros H. exists "", "". auto.
    + intros (a & b & E & H). destruct a; [|discriminate]. cbn in E. now subst b.
  - change (matches cl ts (String c n) || matches cl (Any :: ts) n = true <-> exists a b, String c n = (a ++ b)%string /\ matches cl ts b = true).
    rewrite orb_true_iff, IH. split.
    + intros [H|(a & b & -> & H)]; [exists "", (String c n); auto|]. exists (String c a), b. auto.
    + intros (a & b & E & H). destruct a as [|d a]; [left; cbn in E; now subst b|]. right. injection E as _ E. exists a, b. auto.
Qed.
(** ** Classes *)
Lemma until_iff : forall s body rest, until_bracket s = Some (body, rest) <->
  ~ In "]"%char (list_ascii_of_string body) /\ s = (body ++ String "]" rest)%string.
Proof.
  induction s as [|c s IH]; intros body rest; cbn [until_bracket].
  - split; [discriminate|]. intros [_ E]. destruct body; discriminate.
  - destruct (Ascii.eqb_spec c "]") as [->|N].
    + split.
      * intros E. injection E as <- <-. split; [intros []|reflexivity].
      * intros [X E]. destruct body as [|d body]; [cbn in E; now injection E as ->|]. exfalso. injection E as <- _. apply X. now left.
    + destruct (until_bracket s) as [[b r]|] eqn:U.
      * destruct (proj1 (IH b r) eq_refl) as [Nb ->]. split.
        -- intros E. injection E as <- <-. split; [|reflexivity]. cbn. intros [X|X]; [now apply N|now apply Nb].
        -- intros [X E]. destruct body as [|d body]; [injection E as E _; contradiction|]. injection E as <- E.
           assert (Some (b, r) = Some (body, rest)) as Q by (apply (proj2 (IH body rest)); split; [intros Y; apply X; now right|exact E]).
           now injection Q as <- <-.
      * split; [discriminate|]. intros [X E]. destruct body as [|d body]; [injection E as E _; contradiction|]. injection E as <- E.
        assert (None = Some (body, rest)) as Q by (apply (proj2 (IH body rest)); split; [intros Y; apply X; now right|exact E]). discriminate.
Qed.
Lemma bracketed_text : forall s body rest, bracketed s = Some (body, rest) <-> class_text body /\ s = (body ++ String "]" rest)%string.
Proof.
  intros s body rest.
  assert (forall c s', c <> "!"%char ->
    (match until_bracket s' with Some (b, r) => Some (String c b, r) | None => None end = Some (body, rest) <->
     class_text body /\ String c s' = (body ++ String "]" rest)%string)) as K.
  { intros c s' Nc. split.
    - destruct (until_bracket s') as [[b r]|] eqn:U; [|discriminate]. intros E. injection E as <- <-. apply until_iff in U. destruct U as [Nb ->].
      split; [|reflexivity]. exists "", c, b. repeat split; auto.
    - intros [(before & d & r & -> & [->|[-> Nd]] & Nr) E]; cbn in E; injection E as Ec E; [subst c; contradiction|]. subst d.
      rewrite (proj2 (until_iff s' r rest)); [reflexivity|]. auto. }
  assert (forall d s'', 
    (match until_bracket s'' with Some (b, r) => Some (String "!" (String d b), r) | None => None end = Some (body, rest) <->
     class_text body /\ String "!" (String d s'') = (body ++ String "]" rest)%string)) as B.
  { intros d s''. split.
    - destruct (until_bracket s'') as [[b r]|] eqn:U; [|discriminate]. intros E. injection E as <- <-. apply until_iff in U. destruct U as [Nb ->].
      split; [|reflexivity]. exists "!", d, b. repeat split; auto.
    - intros [(before & x & r & -> & [->|[-> Nd]] & Nr) E]; cbn in E; injection E as E1 E; [|subst x; contradiction].
      subst x. rewrite (proj2 (until_iff s'' r rest)); [reflexivity|]. auto. }
  destruct s as [|c s']; cbn [bracketed].
  - split; [discriminate|]. intros [_ E]. destruct body; discriminate.
  - destruct (Ascii.eqb_spec c "]") as [->|N1]; [apply K; discriminate|]. destruct (Ascii.eqb_spec c "!") as [->|N2].
    + destruct s' as [|d s''].
      * split; [discriminate|]. intros [(before & x & r & -> & [->|[-> Nx]] & _) E]; cbn in E; [discriminate|]. injection E as E1 E.
        subst x. now contradiction Nx.
      * destruct (Ascii.eqb_spec d "]") as [->|Nd]; [apply B|]. rewrite <- B. cbn [until_bracket].
        rewrite (proj2 (Ascii.eqb_neq "!" "]")) by discriminate. rewrite (proj2 (Ascii.eqb_neq d "]") Nd).
        destruct (until_bracket s'') as [[b r]|]; reflexivity.
    + rewrite <- (K c s' N2). cbn [until_bracket]. rewrite (proj2 (Ascii.eqb_neq c "]") N1). reflexivity.
Qed.
Lemma length_app_s : forall a b, String.length (a ++ b)%string = String.length a + String.length b.
Proof. induction a; intros b; cbn; [reflexivity|]. now rewrite IHa. Qed.
Lemma tokens_iff : forall cl fuel p n, String.length p <= fuel -> (matches cl (tokens fuel p) n = true <-> stands_for cl p n).
Proof.
  intros cl fuel. induction fuel as [|fuel IH]; intros p n Le.
  - destruct p; [|cbn in Le; lia]. cbn [tokens matches]. rewrite String.eqb_eq. split; [intros ->; constructor|]. intros H. now inversion H.
  - destruct p as [|c p]; cbn [tokens].
    { cbn [matches]. rewrite String.eqb_eq. split; [intros ->; constructor|]. intros H. now inversion H. }
    cbn [String.length] in Le. destruct (Ascii.eqb_spec c "*") as [->|N1].
    { rewrite any_iff. split.
      - intros (a & b & -> & H). constructor. apply IH; [lia|exact H].
      - intros H. inversion H as [|text p' b Hb| | |c' p' b X]; subst; [|contradiction]. exists text, b. split; [reflexivity|]. apply IH; [lia|exact Hb]. }
    destruct (Ascii.eqb_spec c "?") as [->|N2].
    { cbn [matches]. split.
      - destruct n as [|d n]; [discriminate|]. intros H. constructor. apply IH; [lia|exact H].
      - intros H. inversion H as [| |d p' b Hb| |c' p' b X Y]; subst; [|contradiction]. apply IH; [lia|exact Hb]. }
    assert (forall m, (c = "["%char -> forall body rest, class_text body -> p <> (body ++ String "]" rest)%string) ->
      (matches cl (Lit c :: tokens fuel p) m = true <-> stands_for cl (String c p) m)) as K.
    { intros m Nb. cbn [matches]. split.
      - destruct m as [|d m]; [discriminate|]. rewrite andb_true_iff, Ascii.eqb_eq. intros [<- H]. constructor; auto. apply IH; [lia|exact H].
      - intros H. inversion H as [|text p' b Hb|d p' b Hb|body d p' b Ct Hc Hb|c' p' b X Y Z Hb]; subst; try contradiction.
        + exfalso. exact (Nb eq_refl body p' Ct eq_refl).
        + rewrite Ascii.eqb_refl. cbn [andb]. apply IH; [lia|exact Hb]. }
    destruct (Ascii.eqb_spec c "[") as [->|N3]; [|apply K; intros X; contradiction].
    destruct (bracketed p) as [[body rest]|] eqn:Eb.
    + apply bracketed_text in Eb. destruct Eb as [Ct ->]. rewrite length_app_s in Le. cbn [String.length] in Le. cbn [matches]. split.
      * destruct n as [|d n]; [discriminate|]. rewrite andb_true_iff. intros [Hc H]. constructor; auto. apply IH; [lia|exact H].
      * intros H. inversion H as [| | |body' d p' b Ct' Hc Hb E1|c' p' b X Y Z Hb]; subst.
        -- assert (Some (body, rest) = Some (body', p')) as Q.
           { transitivity (bracketed (body ++ String "]" rest)%string); [symmetry|]; apply bracketed_text; split; auto. }
           injection Q as <- <-. rewrite Hc. cbn [andb]. apply IH; [lia|exact Hb].
        -- exfalso. exact (Z eq_refl body rest Ct eq_refl).
    + apply K. intros _ body rest Ct E. assert (bracketed p = Some (body, rest)) by (apply bracketed_text; auto). congruence.
Qed.
Lemma fnmatch_iff : forall cl p n, fnmatch cl p n = true <-> stands_for cl p n.
Proof. intros cl p n. unfold fnmatch. apply tokens_iff. lia. Qed.

Lemma hpp_iff : forall cl n, fnmatch cl "*.hpp" n = true <-> hpp n.
Proof.
  intros cl n. unfold fnmatch. change (tokens (String.length "*.hpp") "*.hpp") with [Any; Lit "."; Lit "h"; Lit "p"; Lit "p"].
  rewrite any_iff. split.
  - intros (a & b & -> & H). exists a. f_equal. cbn [matches] in H.
    destruct b as [|c1 [|c2 [|c3 [|c4 b]]]]; try discriminate; rewrite ?andb_false_r in H; try discriminate.
    repeat (apply andb_true_iff in H; let X := fresh "X" in destruct H as [X H]; apply Ascii.eqb_eq in X; subst). now apply String.eqb_eq in H; subst.
  - intros [stem ->]. exists stem, ".hpp". split; reflexivity.
Qed.

(** ** Trees *)
Fixpoint entry_ind' (P : entry -> Prop) (F : P File) (D : forall cs, Forall (fun x => P (snd x)) cs -> P (Dir cs)) (e : entry) : P e :=
  match e with
  | File => F
  | Dir cs => D cs ((fix go cs := match cs return Forall (fun x => P (snd x)) cs with
                                   | [] => Forall_nil _
                                   | x :: cs => Forall_cons x (entry_ind' P F D (snd x)) (go cs)
                                   end) cs)
  end.
Lemma proper_dir : forall cs, proper (Dir cs) <-> NoDup (map fst cs) /\ Forall (fun x => proper (snd x)) cs.
Proof.
  intros cs. cbn [proper]. split; intros [N A]; (split; [exact N|]); clear N.
  - induction cs; [constructor|]. destruct A as [A B]. constructor; auto.
  - induction A; [exact Logic.I|]. split; auto.
Qed.
Lemma find_child : forall (cs : list (string * entry)) n child, NoDup (map fst cs) ->
  (In (n, child) cs <-> find (fun x => String.eqb (fst x) n) cs = Some (n, child)).
Proof.
  intros cs n child N. split.
  - induction cs as [|[m e] cs IH]; intros I; [destruct I|]. cbn [find fst]. inversion N as [|? ? N1 N2]; subst. destruct I as [I|I].
    + injection I as -> ->. now rewrite String.eqb_refl.
    + destruct (String.eqb_spec m n) as [->|_]; [|auto]. exfalso. apply N1. apply (in_map fst) in I. exact I.
  - intros E. apply find_some in E. apply E.
Qed.
Lemma found_name : forall cs n x, find (fun x : string * entry => String.eqb (fst x) n) cs = Some x -> fst x = n.
Proof. intros cs n x E. apply find_some in E. destruct E as [_ E]. now apply String.eqb_eq. Qed.
Lemma lookup_cons : forall (cs : list (string * entry)) n path e, NoDup (map fst cs) ->
  (lookup (Dir cs) (n :: path) = Some e <-> exists child, In (n, child) cs /\ lookup child path = Some e).
Proof.
  intros cs n path e N. cbn [lookup]. split.
  - destruct (find (fun x => String.eqb (fst x) n) cs) as [[m child]|] eqn:E; [|discriminate].
    pose proof (found_name _ _ _ E) as Em. cbn in Em. subst m. intros H. exists child. split; [|exact H]. now apply find_child.
  - intros (child & I & H). apply (proj1 (find_child cs n child N)) in I. now rewrite I.
Qed.
Lemma lookup_app : forall p q e, lookup e (p ++ q) = match lookup e p with Some e' => lookup e' q | None => None end.
Proof.
  induction p as [|n p IH]; intros q e; cbn [app lookup]; [destruct q, e; reflexivity|].
  destruct e as [|cs]; [reflexivity|]. destruct (find (fun x => String.eqb (fst x) n) cs) as [[m child]|]; [apply IH|reflexivity].
Qed.
Lemma lookup_proper : forall p e e', proper e -> lookup e p = Some e' -> proper e'.
Proof.
  induction p as [|n p IH]; intros e e' P H.
  - assert (lookup e [] = Some e) by (destruct e; reflexivity). congruence.
  - destruct e as [|cs]; [discriminate|]. apply proper_dir in P. destruct P as [N A]. apply lookup_cons in H; [|exact N].
    destruct H as (child & I & H). apply (IH child); [|exact H]. rewrite Forall_forall in A. exact (A _ I).
Qed.
Lemma lookup_nil : forall e, lookup e [] = Some e.
Proof. destruct e; reflexivity. Qed.

Definition below_all (cs : list (string * entry)) : list (list string) :=
  flat_map (fun x => if is_dir (snd x) && negb (hidden (fst x)) then [fst x] :: map (cons (fst x)) (below (snd x)) else []) cs.
Lemma below_dir : forall cs, below (Dir cs) = below_all cs.
Proof.
  intros cs. cbn [below]. induction cs as [|[n e] cs IH]; [reflexivity|]. cbn [below_all flat_map fst snd]. f_equal. exact IH.
Qed.
Lemma below_iff : forall e, proper e -> forall q, q <> [] ->
  (In q (below e) <-> (exists cs, lookup e q = Some (Dir cs)) /\ Forall (fun n => hidden n = false) q).
Proof.
  intros e. induction e as [|cs IH] using entry_ind'; intros P q Nq.
  - cbn [below]. split; [intros []|]. intros [[cs H] _]. destruct q; [contradiction|discriminate].
  - apply proper_dir in P. destruct P as [N A]. rewrite below_dir. unfold below_all. rewrite in_flat_map.
    rewrite Forall_forall in IH, A. destruct q as [|n q]; [contradiction|]. split.
    + intros ([m child] & I & H). cbn [fst snd] in H. destruct (is_dir child && negb (hidden m)) eqn:E; [|destruct H].
      apply andb_true_iff in E. destruct E as [Ed Eh]. apply negb_true_iff in Eh. destruct H as [H|H].
      * injection H as -> <-. split; [|auto]. destruct child as [|cs']; [discriminate|]. exists cs'. apply lookup_cons; [exact N|].
        exists (Dir cs'). split; [exact I|reflexivity].
      * apply in_map_iff in H. destruct H as (q' & H & Iq). injection H as -> ->.
        assert (q <> []) as Nq'.
        { intros ->. destruct child as [|cs']; [discriminate|]. rewrite below_dir in Iq. unfold below_all in Iq. apply in_flat_map in Iq.
          destruct Iq as ([y z] & _ & Iq). cbn [fst snd] in Iq. destruct (is_dir z && negb (hidden y)); [|destruct Iq].
          destruct Iq as [Iq|Iq]; [discriminate|]. apply in_map_iff in Iq. destruct Iq as (? & X & _). discriminate. }
        apply (IH _ I (A _ I) q Nq') in Iq. cbn [snd] in Iq. destruct Iq as [[cs' L] F]. split; [|auto].
        exists cs'. apply lookup_cons; [exact N|]. exists child. auto.
    + intros [[cs' L] F]. inversion F as [|? ? Hn Hq]; subst. apply lookup_cons in L; [|exact N]. destruct L as (child & I & L).
      exists (n, child). split; [exact I|]. cbn [fst snd].
      assert (is_dir child = true) as Ed by (destruct child; [destruct q; discriminate|reflexivity]).
      rewrite Ed, Hn. cbn [andb negb]. destruct q as [|m q]; [now left|]. right. apply in_map. apply (IH _ I (A _ I) (m :: q)); [discriminate|].
      split; [now exists cs'|exact Hq].
Qed.
Lemma listdir_iff : forall root dir n e, proper root ->
  (In (n, e) (listdir root dir) <-> lookup root (dir ++ [n]) = Some e).
Proof.
  intros root dir n e P. unfold listdir. rewrite lookup_app. destruct (lookup root dir) as [e0|] eqn:E; [|split; [intros []|discriminate]].
  pose proof (lookup_proper _ _ _ P E) as P0. destruct e0 as [|cs]; [split; [intros []|discriminate]|].
  apply proper_dir in P0. destruct P0 as [N _]. rewrite (lookup_cons cs n [] e N). split.
  - intros I. exists e. split; [exact I|apply lookup_nil].
  - intros (child & I & H). rewrite lookup_nil in H. injection H as ->. exact I.
Qed.

(** ** Patterns *)
Lemma star_magic : has_magic "**" = true. Proof. reflexivity. Qed.

Lemma in_star : forall cl root dir b q, proper root ->
  (In q (in_directory cl root dir "**" b) <->
   q = [] \/ q <> [] /\ (exists cs, lookup root (dir ++ q) = Some (Dir cs)) /\ Forall (fun n => ~ dotted n) q).
Proof.
  intros cl root dir b q P. unfold in_directory. rewrite String.eqb_refl. cbn [In].
  assert (forall l : list string, Forall (fun n => hidden n = false) l <-> Forall (fun n => ~ dotted n) l) as D.
  { intros l. split; apply Forall_impl; intros n; apply not_hidden_iff. }
  assert (forall e, ~ In [] (below e)) as NB.
  { intros [|cs]; [intros []|]. rewrite below_dir. unfold below_all. rewrite in_flat_map. intros ([y z] & _ & Iq). cbn [fst snd] in Iq.
    destruct (is_dir z && negb (hidden y)); [|destruct Iq].
    destruct Iq as [Iq|Iq]; [discriminate|]. apply in_map_iff in Iq. destruct Iq as (? & X & _). discriminate. }
  split.
  - intros [<-|H]; [now left|]. right. destruct (lookup root dir) as [e|] eqn:E; [|destruct H].
    assert (q <> []) as Nq by (intros ->; exact (NB e H)). split; [exact Nq|].
    apply (below_iff e (lookup_proper _ _ _ P E) q Nq) in H. rewrite lookup_app, E, <- D. exact H.
  - intros [->|(Nq & [cs L] & F)]; [now left|]. right. rewrite lookup_app in L. destruct (lookup root dir) as [e|] eqn:E; [|discriminate].
    apply (below_iff e (lookup_proper _ _ _ P E) q Nq). rewrite D. split; [now exists cs|exact F].
Qed.
Lemma in_other : forall cl root dir c b q, proper root -> c <> "**" ->
  (In q (in_directory cl root dir c b) <->
   exists n e, q = [n] /\ lookup root (dir ++ [n]) = Some e /\ found_for cl c n /\ (b = true -> wild c -> is_dir e = true)).
Proof.
  intros cl root dir c b q P Nc. unfold in_directory. destruct (String.eqb_spec c "**") as [E|_]; [contradiction|].
  destruct (has_magic c) eqn:M.
  - pose proof (proj1 (magic_iff c) M) as W. rewrite in_map_iff. split.
    + intros ([n e] & <- & H). apply filter_In in H. cbn [fst snd] in *. destruct H as [I H].
      apply (listdir_iff root dir n e P) in I. rewrite !andb_true_iff, !orb_true_iff in H. destruct H as [[H1 H2] H3].
      exists n, e. repeat split; auto.
      * right. split; [exact W|]. split; [now apply fnmatch_iff|]. intros Dn. apply hidden_iff in Dn. rewrite Dn in H2. destruct H2 as [H2|H2]; [now apply hidden_iff|discriminate].
      * intros -> _. destruct H1 as [H1|H1]; [exact H1|discriminate].
    + intros (n & e & -> & L & [[NW _]|(_ & F & Dn)] & Hb); [contradiction|]. apply fnmatch_iff in F. exists (n, e). split; [reflexivity|].
      apply filter_In. cbn [fst snd]. split; [now apply listdir_iff|]. rewrite F, andb_true_r. apply andb_true_iff. split.
      * destruct b; [rewrite (Hb eq_refl W); reflexivity|]. apply orb_true_r.
      * destruct (hidden n) eqn:Eh; [|apply orb_true_r]. rewrite (proj2 (hidden_iff c)); [reflexivity|]. apply Dn. now apply hidden_iff.
  - pose proof (proj1 (not_magic_iff c) M) as W. destruct (lookup root (dir ++ [c])) as [e|] eqn:L.
    + split.
      * intros [<-|[]]. exists c, e. split; [reflexivity|]. split; [exact L|]. split; [left; auto|]. intros _ X. contradiction.
      * intros (n & e' & -> & _ & [[_ ->]|(X & _)] & _); [now left|contradiction].
    + split; [intros []|]. intros (n & e' & -> & L' & [[_ ->]|(X & _)] & _); [congruence|contradiction].
Qed.

Definition plain_path (l : list string) : bool := negb (existsb has_magic l).
Lemma plain_iff : forall l, existsb has_magic l = false <-> Forall (fun n => ~ wild n) l.
Proof.
  induction l as [|n l IH]; cbn [existsb]; [split; auto|]. rewrite orb_false_iff, IH, not_magic_iff. split; [intros [A B]; auto|].
  intros H. inversion H; auto.
Qed.
Lemma lookup_dir_prefix : forall p q root cs, q <> [] -> lookup root (p ++ q) = Some cs -> exists ds, lookup root p = Some (Dir ds).
Proof.
  intros p q root e N H. rewrite lookup_app in H. destruct (lookup root p) as [[|ds]|]; [destruct q; [contradiction|discriminate]|eauto|discriminate].
Qed.

Lemma path_app : forall cl l1 l2 d1 d2, path_for cl l1 d1 -> path_for cl l2 d2 -> path_for cl (l1 ++ l2) (d1 ++ d2).
Proof.
  intros cl l1 l2 d1 d2 A B. induction A; cbn [app]; [exact B|constructor; assumption|]. rewrite <- app_assoc. constructor; assumption.
Qed.
Lemma path_app_inv : forall cl l1 l2 d, path_for cl (l1 ++ l2) d -> exists d1 d2, d = d1 ++ d2 /\ path_for cl l1 d1 /\ path_for cl l2 d2.
Proof.
  induction l1 as [|c l1 IH]; intros l2 d H; cbn [app] in H.
  - exists [], d. split; [reflexivity|]. split; [constructor|exact H].
  - inversion H as [|c' n l p Nc F Hp|dirs l p F Hp]; subst.
    + destruct (IH l2 p Hp) as (d1 & d2 & -> & A & B). exists (n :: d1), d2. split; [reflexivity|]. split; [constructor; assumption|exact B].
    + destruct (IH l2 p Hp) as (d1 & d2 & -> & A & B). exists (dirs ++ d1), d2. split; [apply app_assoc|]. split; [constructor; assumption|exact B].
Qed.
Lemma path_one : forall cl c n, c <> "**" -> found_for cl c n -> path_for cl [c] [n].
Proof. intros cl c n N F. constructor; [exact N|exact F|constructor]. Qed.
Lemma path_star : forall cl dirs, Forall (fun n => ~ dotted n) dirs -> path_for cl ["**"] dirs.
Proof. intros cl dirs F. rewrite <- (app_nil_r dirs). constructor; [exact F|constructor]. Qed.
Lemma path_one_inv : forall cl c d, path_for cl [c] d ->
  (c <> "**" /\ exists n, d = [n] /\ found_for cl c n) \/ (c = "**" /\ Forall (fun n => ~ dotted n) d).
Proof.
  intros cl c d H. inversion H as [|c' n l p Nc F Hp|dirs l p F Hp]; subst; inversion Hp; subst.
  - left. split; [exact Nc|]. now exists n.
  - right. split; [reflexivity|]. now rewrite app_nil_r.
Qed.
Lemma plain_star : forall c, ~ wild c -> c <> "**".
Proof. intros c W ->. apply W. apply magic_iff. reflexivity. Qed.
Lemma path_plain : forall cl l m, Forall (fun n => ~ wild n) l -> path_for cl l m -> m = l.
Proof.
  intros cl l m H F. induction F as [|c n l m Nc Hc F IH|dirs l m Hd F IH]; [reflexivity| |].
  - inversion H as [|? ? H1 H2]; subst. rewrite (IH H2). f_equal. destruct Hc as [[_ E]|(W & _)]; [exact E|contradiction].
  - inversion H as [|? ? H1 H2]; subst. destruct (plain_star _ H1 eq_refl).
Qed.
Lemma path_self : forall cl l, Forall (fun n => ~ wild n) l -> path_for cl l l.
Proof. intros cl l H. induction H; constructor; [now apply plain_star|left; auto|assumption]. Qed.

(** The directories that a pattern stands for: as far as anything is found in them. *)
Lemma iglob_dirs : forall cl root comps, proper root ->
  forall d, (exists cs, lookup root d = Some (Dir cs)) ->
  (In d (if existsb has_magic comps then iglob cl root comps true else [rev comps]) <-> path_for cl (rev comps) d).
Proof.
  intros cl root comps P. induction comps as [|c comps IH]; intros d [cs L].
  - cbn [existsb rev]. split; [intros [<-|[]]; constructor|]. intros H. inversion H. now left.
  - cbn [existsb]. destruct (has_magic c || existsb has_magic comps) eqn:M.
    + cbn [iglob]. rewrite in_flat_map. cbn [rev]. split.
      * intros (dir & I & H). apply in_map_iff in H. destruct H as (q & <- & Iq).
        destruct (String.eqb_spec c "**") as [->|Nc].
        -- apply in_star in Iq; [|exact P]. apply path_app.
           ++ apply IH; [|exact I]. destruct q as [|x q]; [rewrite app_nil_r in L; eauto|].
              apply (lookup_dir_prefix dir (x :: q) root (Dir cs)); [discriminate|exact L].
           ++ apply path_star. destruct Iq as [->|(_ & _ & F)]; auto.
        -- apply in_other in Iq; auto. destruct Iq as (n & e & -> & Le & F & _). apply path_app; [|now apply path_one].
           apply IH; [|exact I]. apply (lookup_dir_prefix dir [n] root e); [discriminate|exact Le].
      * intros F. apply path_app_inv in F. destruct F as (dir & q & -> & F1 & F2). apply path_one_inv in F2.
        assert (exists ds, lookup root dir = Some (Dir ds)) as Ld.
        { destruct q as [|x q]; [rewrite app_nil_r in L; eauto|]. apply (lookup_dir_prefix dir (x :: q) root (Dir cs)); [discriminate|exact L]. }
        exists dir. split; [apply IH; assumption|]. apply in_map_iff. exists q. split; [reflexivity|].
        destruct F2 as [(Nc & n & -> & Fn)|(-> & Fq)].
        -- apply in_other; auto. exists n, (Dir cs). repeat split; auto.
        -- apply in_star; [exact P|]. destruct q as [|x q]; [now left|]. right. split; [discriminate|]. split; [eauto|exact Fq].
    + assert (Forall (fun n => ~ wild n) (rev (c :: comps))) as Pl.
      { apply Forall_rev. apply plain_iff. exact M. }
      split; [intros [<-|[]]; now apply path_self|]. intros F. left. symmetry. exact (path_plain cl _ _ Pl F).
Qed.

Lemma wild_star : wild "*.hpp". Proof. apply magic_iff. reflexivity. Qed.
Lemma undotted_star : ~ dotted "*.hpp". Proof. intros [r E]. discriminate. Qed.
Lemma globbed_iff : forall cl root project p, proper root ->
  (In p (globbed cl root project) <->
   exists base dirs name, p = base ++ ["libuavcan"; "include"] ++ dirs ++ [name] /\ path_for cl project base /\
     (exists e, lookup root p = Some e) /\ hpp name /\ Forall (fun n => ~ dotted n) (dirs ++ [name])).
Proof.
  intros cl root project p P. unfold globbed. rewrite rev_app_distr. change (rev ["**"; "*.hpp"]) with ["*.hpp"; "**"]. cbn [app].
  set (inc := rev (include_of project)). cbn [iglob]. change (existsb has_magic ("**" :: inc)) with true. cbv iota.
  rewrite in_flat_map. split.
  - intros (dir & I & H). apply in_map_iff in H. destruct H as (q & <- & Iq). apply in_other in Iq; [|exact P|discriminate].
    destruct Iq as (name & e & -> & L & F & _). cbn [iglob] in I. apply in_flat_map in I. destruct I as (d & Id & H).
    apply in_map_iff in H. destruct H as (q & <- & Iq). apply in_star in Iq; [|exact P].
    destruct (lookup_dir_prefix (d ++ q) [name] root e ltac:(discriminate) L) as [ds Ld].
    assert (exists cs, lookup root d = Some (Dir cs)) as Dd.
    { destruct q as [|x q]; [rewrite app_nil_r in Ld; eauto|]. apply (lookup_dir_prefix d (x :: q) root (Dir ds)); [discriminate|exact Ld]. }
    apply (iglob_dirs cl root inc P d Dd) in Id. unfold inc in Id. rewrite rev_involutive in Id.
    unfold include_of in Id. apply path_app_inv in Id. destruct Id as (base & tail & -> & F1 & F2).
    apply path_plain in F2; [|repeat constructor; apply not_magic_iff; reflexivity]. subst tail.
    destruct F as [[NW _]|(_ & Fm & Dn)]; [destruct (NW wild_star)|].
    exists base, q, name. repeat split; auto.
    + rewrite <- !app_assoc. reflexivity.
    + eauto.
    + apply (hpp_iff cl). now apply fnmatch_iff.
    + apply Forall_app. split; [destruct Iq as [->|(_ & _ & Fq)]; auto|]. constructor; [|constructor]. intros X. exact (undotted_star (Dn X)).
  - intros (base & dirs & name & -> & F & [e L] & Hh & Fd). apply Forall_app in Fd. destruct Fd as [Fd Fn]. inversion Fn as [|? ? Nn _]; subst.
    set (d := base ++ ["libuavcan"; "include"]).
    assert (Ep : base ++ "libuavcan" :: "include" :: dirs ++ [name] = (d ++ dirs) ++ [name]) by (unfold d; rewrite <- !app_assoc; reflexivity).
    rewrite Ep in L |- *. destruct (lookup_dir_prefix (d ++ dirs) [name] root e ltac:(discriminate) L) as [ds Ld].
    exists (d ++ dirs). split.
    + cbn [iglob]. apply in_flat_map. exists d. split.
      * apply (iglob_dirs cl root inc P).
        -- destruct dirs as [|x q]; [rewrite app_nil_r in Ld; eauto|]. apply (lookup_dir_prefix d (x :: q) root (Dir ds)); [discriminate|exact Ld].
        -- unfold inc. rewrite rev_involutive. unfold include_of, d. apply path_app; [exact F|].
           apply path_self. repeat constructor; apply not_magic_iff; reflexivity.
      * apply in_map_iff. exists dirs. split; [reflexivity|]. apply in_star; [exact P|].
        destruct dirs as [|x q]; [now left|]. right. split; [discriminate|]. split; [eauto|exact Fd].
    + apply in_map_iff. exists [name]. split; [reflexivity|]. apply in_other; [exact P|discriminate|].
      exists name, e. repeat split; auto; [|discriminate]. right. split; [exact wild_star|]. split; [apply fnmatch_iff; now apply hpp_iff|]. intros X. contradiction.
Qed.

Lemma globbed_plain : forall cl root project p, proper root -> Forall (fun n => ~ wild n) project ->
  (In p (globbed cl root project) <->
   exists dirs name, p = project ++ ["libuavcan"; "include"] ++ dirs ++ [name] /\
     (exists e, lookup root p = Some e) /\ hpp name /\ Forall (fun n => ~ dotted n) (dirs ++ [name])).
Proof.
  intros cl root project p P W. rewrite (globbed_iff cl root project p P). split.
  - intros (base & dirs & name & E & F & H). apply path_plain in F; [|exact W]. subst base. exists dirs, name. auto.
  - intros (dirs & name & E & H). exists project, dirs, name. split; [exact E|]. split; [now apply path_self|exact H].
Qed.
Lemma hpp_dec_dir : forall cl root project, proper root -> Forall (fun n => ~ wild n) project ->
  ((forall p, In p (globbed cl root project) <-> header_of root project p) <->
   (forall dirs name, let p := project ++ ["libuavcan"; "include"] ++ dirs ++ [name] in hpp name ->
      (lookup root p = Some File -> Forall (fun n => ~ dotted n) (dirs ++ [name])) /\
      (directory root p -> ~ Forall (fun n => ~ dotted n) (dirs ++ [name])))).
Proof.
  intros cl root project P W. split.
  - intros H dirs name p Hh. split.
    + intros L. assert (In p (globbed cl root project)) as I by (apply H; exists dirs, name; auto).
      apply (globbed_plain cl root project p P W) in I. destruct I as (dirs' & name' & E & _ & _ & F). unfold p in E.
      apply app_inv_head in E. apply app_inv_head in E. rewrite E. exact F.
    + intros [cs L] F. assert (In p (globbed cl root project)) as I.
      { apply (globbed_plain cl root project p P W). exists dirs, name. repeat split; auto. eauto. }
      apply H in I. destruct I as (dirs' & name' & _ & _ & L'). congruence.
  - intros H p. rewrite (globbed_plain cl root project p P W). split.
    + intros (dirs & name & E & [e L] & Hh & F). exists dirs, name. split; [exact E|]. split; [exact Hh|].
      destruct e as [|cs]; [exact L|]. exfalso. subst p. apply (proj2 (H dirs name Hh)); [now exists cs|exact F].
    + intros (dirs & name & E & Hh & L). exists dirs, name. repeat split; auto; [eauto|]. subst p. exact (proj1 (H dirs name Hh) L).
Qed.
