(** Proofs about generated headers. *)
From Coq Require Import ZArith Bool List String Lia.
From Verif Require Import GenModel GenSpec.
Import ListNotations.
Open Scope list_scope.
Open Scope Z_scope.

Lemma existsb_name : forall g l, existsb (String.eqb g) l = true <-> In g l.
Proof.
  intros g l. rewrite existsb_exists. split.
  - intros (x & I & E). apply String.eqb_eq in E. now subst.
  - intros I. exists g. split; [assumption | apply String.eqb_refl].
Qed.

Lemma existsb_type : forall q (l : list (list string * string)),
  existsb (fun t => if list_eq_dec string_dec (fst t) q then true else false) l = true <-> exists b, In (q, b) l.
Proof.
  intros q l. rewrite existsb_exists. split.
  - intros ((x & b) & I & E). cbn [fst] in E. destruct (list_eq_dec string_dec x q); [| discriminate]. subst. now exists b.
  - intros (b & I). exists (q, b). split; [assumption |]. cbn [fst]. destruct (list_eq_dec string_dec q q); congruence.
Qed.

(** Every type seen has its guard defined, so that no type is defined twice. *)
Definition guarded (macrofy : string -> string) (u : tunit) : Prop :=
  forall q b, In (q, b) (types u) -> In (macrofy (String.concat "." q)) (macros u).

Lemma include_cases : forall macrofy d u, guarded macrofy u ->
  (In (macrofy (full_name d)) (macros u) /\ include macrofy d u = Some u) \/
  (~ In (macrofy (full_name d)) (macros u) /\ (forall b, ~ In (qualified d, b) (types u)) /\
   include macrofy d u = Some (TUnit (macrofy (full_name d) :: macros u) (types u ++ [(qualified d, body d)]))).
Proof.
  intros macrofy d u G. unfold include.
  destruct (existsb (String.eqb (macrofy (full_name d))) (macros u)) eqn:E.
  - left. split; [now apply existsb_name | reflexivity].
  - assert (~ In (macrofy (full_name d)) (macros u)) as N by (intros I; apply existsb_name in I; congruence).
    right. split; [assumption |].
    assert (forall b, ~ In (qualified d, b) (types u)) as N2 by (intros b I; exact (N (G _ _ I))). split; [assumption |].
    destruct (existsb _ (types u)) eqn:E2; [| reflexivity].
    apply existsb_type in E2. destruct E2 as (b & I). now apply N2 in I.
Qed.

Lemma include_guarded : forall macrofy d u u', guarded macrofy u -> include macrofy d u = Some u' -> guarded macrofy u'.
Proof.
  intros macrofy d u u' G E. destruct (include_cases macrofy d u G) as [(_ & R) | (_ & _ & R)]; rewrite R in E; inversion E; subst; clear E.
  - assumption.
  - intros q b I. cbn [types macros] in *. apply in_app_iff in I. destruct I as [I | [I | []]].
    + right. exact (G _ _ I).
    + inversion I; subst. left. reflexivity.
Qed.

Lemma translate_some : forall macrofy hs u, guarded macrofy u -> exists u', translate macrofy hs u = Some u'.
Proof.
  intros macrofy hs. induction hs as [| d hs IH]; intros u G; cbn [translate]; [eauto |].
  destruct (include_cases macrofy d u G) as [(_ & R) | (_ & _ & R)]; rewrite R; apply IH.
  - assumption.
  - exact (include_guarded macrofy d u _ G R).
Qed.

(** What a sequence of headers adds. *)
Lemma translate_types : forall macrofy hs u u', guarded macrofy u -> translate macrofy hs u = Some u' ->
  forall q b, In (q, b) (types u') <->
    In (q, b) (types u) \/
    exists h d t, hs = h ++ d :: t /\ qualified d = q /\ body d = b /\ ~ In (macrofy (full_name d)) (macros u) /\
      forall e, In e h -> macrofy (full_name e) <> macrofy (full_name d).
Proof.
  intros macrofy hs. induction hs as [| d hs IH]; intros u u' G E q b; cbn [translate] in E.
  - inversion E; subst. split; [tauto |]. intros [I | (h & d & t & X & _)]; [assumption |]. destruct h; discriminate.
  - destruct (include_cases macrofy d u G) as [(I & R) | (N & N2 & R)]; rewrite R in E.
    + rewrite (IH u u' G E q b). split; (intros [X | (h & e & t & X & Q & B & M & F)]; [tauto |]); right.
      * exists (d :: h), e, t. subst hs. repeat split; try assumption. intros x [<- | Hx]; [| now apply F].
        intros C. apply M. rewrite <- C. exact I.
      * destruct h as [| d0 h]; cbn [app] in X; inversion X; subst; clear X.
        { contradiction. }
        exists h, e, t. repeat split; try assumption. intros x Hx. apply F. now right.
    + pose proof (include_guarded macrofy d u _ G R) as G'.
      rewrite (IH _ u' G' E q b). cbn [types macros]. rewrite in_app_iff. split.
      * intros [[X | [X | []]] | (h & e & t & X & Q & B & M & F)].
        { tauto. }
        { inversion X; subst. right. exists [], d, hs. repeat split; try assumption. intros e []. }
        right. exists (d :: h), e, t. subst hs. repeat split; try assumption.
        { intros C. apply M. now right. }
        { intros x [<- | Hx]; [| now apply F]. intros C. apply M. left. exact C. }
      * intros [X | (h & e & t & X & Q & B & M & F)]; [tauto |].
        destruct h as [| d0 h]; cbn [app] in X; inversion X; subst; clear X.
        { left. right. left. reflexivity. }
        right. exists h, e, t. repeat split; try assumption.
        { intros [C | C]; [| contradiction]. apply (F d0); [now left | exact C]. }
        { intros x Hx. apply F. now right. }
Qed.

Lemma guarded_start : forall macrofy m, guarded macrofy (TUnit m []).
Proof. intros macrofy m q b []. Qed.

Lemma headers_never_clash : forall macrofy m hs, exists u, translate macrofy hs (TUnit m []) = Some u /\
  forall q b c, In (q, b) (types u) -> In (q, c) (types u) -> b = c.
Proof.
  intros macrofy m hs. destruct (translate_some macrofy hs (TUnit m []) (guarded_start macrofy m)) as [u E]. exists u. split; [assumption |].
  intros q b c Ib Ic.
  apply (proj1 (translate_types macrofy hs _ u (guarded_start macrofy m) E q b)) in Ib.
  apply (proj1 (translate_types macrofy hs _ u (guarded_start macrofy m) E q c)) in Ic.
  destruct Ib as [[] | (h1 & d1 & t1 & X1 & Q1 & B1 & M1 & F1)]. destruct Ic as [[] | (h2 & d2 & t2 & X2 & Q2 & B2 & M2 & F2)].
  assert (full_name d1 = full_name d2) as FN by (unfold full_name; congruence).
  assert (d1 = d2) as ->; [| congruence].
  rewrite X1 in X2. clear - X2 F1 F2 FN. revert h2 X2 F2. induction h1 as [| a h1 IH]; intros [| b h2] X F2; cbn [app] in X; inversion X; subst.
  - reflexivity.
  - exfalso. apply (F2 b); [now left | now rewrite FN].
  - exfalso. apply (F1 d2); [now left | now rewrite FN].
  - eapply IH; [| eassumption |]; intros e He; [apply F1 | apply F2]; now right.
Qed.

Lemma sees_first : forall macrofy m hs u d, translate macrofy hs (TUnit m []) = Some u ->
  (sees u d <-> exists before e after, hs = before ++ e :: after /\ qualified e = qualified d /\ body e = body d /\
     ~ In (macrofy (full_name e)) m /\ forall x, In x before -> macrofy (full_name x) <> macrofy (full_name e)).
Proof.
  intros macrofy m hs u d E. unfold sees. rewrite (translate_types macrofy hs _ u (guarded_start macrofy m) E). cbn [types macros In]. tauto.
Qed.

(** The first header with a guard. *)
Lemma first_with : forall macrofy (d : definition) hs, In d hs ->
  exists h e t, hs = h ++ e :: t /\ macrofy (full_name e) = macrofy (full_name d) /\
    forall x, In x h -> macrofy (full_name x) <> macrofy (full_name e) :> string.
Proof.
  intros macrofy d hs. induction hs as [| a hs IH]; intros I; [destruct I |].
  destruct (string_dec (macrofy (full_name a)) (macrofy (full_name d))) as [E | E].
  - exists [], a, hs. repeat split; [assumption | intros x []].
  - destruct I as [-> | I]; [congruence |]. destruct (IH I) as (h & e & t & -> & M & F).
    exists (a :: h), e, t. repeat split; [assumption |]. intros x [<- | Hx]; [congruence | now apply F].
Qed.

Lemma all_seen_iff : forall macrofy hs u, translate macrofy hs (TUnit [] []) = Some u ->
  ((forall d, In d hs -> sees u d) <->
   (forall d e, In d hs -> In e hs -> macrofy (full_name d) = macrofy (full_name e) -> qualified d = qualified e /\ body d = body e)).
Proof.
  intros macrofy hs u E. split.
  - intros A d e Id Ie M. pose proof (A d Id) as Sd. pose proof (A e Ie) as Se.
    apply (proj1 (sees_first macrofy [] hs u d E)) in Sd. apply (proj1 (sees_first macrofy [] hs u e E)) in Se.
    destruct Sd as (h1 & d1 & t1 & X1 & Q1 & B1 & _ & F1). destruct Se as (h2 & d2 & t2 & X2 & Q2 & B2 & _ & F2).
    assert (macrofy (full_name d1) = macrofy (full_name d2)) as FN.
    { unfold full_name in *. rewrite Q1, Q2. exact M. }
    assert (d1 = d2) as ->; [| split; congruence].
    rewrite X1 in X2. clear - X2 F1 F2 FN. revert h2 X2 F2. induction h1 as [| a h1 IH]; intros [| b h2] X F2; cbn [app] in X; inversion X; subst.
    + reflexivity.
    + exfalso. apply (F2 b); [now left | exact FN].
    + exfalso. apply (F1 d2); [now left | now symmetry].
    + eapply IH; [| eassumption |]; intros e He; [apply F1 | apply F2]; now right.
  - intros A d Id. apply (proj2 (sees_first macrofy [] hs u d E)).
    destruct (first_with macrofy d hs Id) as (h & e & t & X & M & F).
    assert (In e hs) as Ie by (subst hs; apply in_elt).
    destruct (A e d Ie Id M) as [Q B]. exists h, e, t. repeat split; try assumption. intros [].
Qed.

Lemma versions_hide : forall macrofy d e hs u, versions_of_one d e -> body d <> body e ->
  translate macrofy hs (TUnit [] []) = Some u -> ~ (sees u d /\ sees u e).
Proof.
  intros macrofy d e hs u [Hn Hs] B E [Sd Se].
  destruct (headers_never_clash macrofy [] hs) as (u2 & E2 & U). rewrite E in E2. inversion E2; subst u2.
  apply B. apply (U (qualified d)); [exact Sd |].
  replace (qualified d) with (qualified e); [exact Se |]. unfold qualified. now rewrite Hn, Hs.
Qed.

(** ** Members *)

Fixpoint some_value (t : dtype) : dvalue :=
  match t with
  | Primitive _ => VBits 0
  | Padding => VPadding
  | Array e n => VList (repeat (some_value e) n)
  | ArrayUpTo _ _ => VList []
  | Composite ts => VList (map some_value ts)
  end.

Lemma some_value_of : forall t, sound t -> value_of t (some_value t).
Proof.
  fix IH 1. intros [b | | e n | e n | ts] Hs.
  - cbn [sound] in Hs. cbn [value_of some_value]. split; [lia | apply Z.pow_pos_nonneg; lia].
  - exact Logic.I.
  - cbn [value_of some_value]. split; [apply repeat_length |]. pose proof (IH e Hs) as He. clear - He.
    induction n as [| n IHn]; cbn [repeat]; constructor; assumption.
  - cbn [value_of some_value]. split; [cbn; lia | constructor].
  - cbn [some_value]. revert ts Hs. fix IHts 1. intros [| t ts] Hs.
    + exact Logic.I.
    + cbn [sound] in Hs. destruct Hs as [Ht Hts]. cbn [map value_of]. split; [exact (IH t Ht) | exact (IHts ts Hts)].
Qed.

Fixpoint read_back (fields : list dtype) (stored : list dvalue) : list dvalue :=
  match fields with
  | [] => []
  | t :: fields =>
      if is_primitive t then match stored with v :: stored => v :: read_back fields stored | [] => [] end
      else some_value t :: read_back fields stored
  end.

Lemma read_back_ok : forall fields, Forall sound fields ->
  (forall t, In t fields -> is_primitive t = true \/ empty_of_news t) ->
  forall m, message_of fields m -> read_back fields (store_structure fields m) = m.
Proof.
  intros fields So H m M. induction M as [| t v fields m Hv M IH]; [reflexivity |].
  inversion So as [| ? ? St Sf]; subst.
  assert (read_back fields (store_structure fields m) = m) as R by (apply IH; [assumption | intros x Hx; apply H; now right]).
  cbn [store_structure read_back]. destruct (is_primitive t) eqn:P.
  - now rewrite R.
  - rewrite R. f_equal. destruct (H t (or_introl eq_refl)) as [C | C]; [congruence |]. apply C; [now apply some_value_of | assumption].
Qed.

Lemma store_same : forall before t after v w, is_primitive t = false ->
  store_structure (before ++ t :: after) (map some_value before ++ v :: map some_value after) =
  store_structure (before ++ t :: after) (map some_value before ++ w :: map some_value after).
Proof.
  intros before t after v w P. induction before as [| a before IH]; cbn [app map store_structure].
  - now rewrite P.
  - rewrite IH. reflexivity.
Qed.

Lemma message_with : forall before t after v, Forall sound before -> Forall sound after -> value_of t v ->
  message_of (before ++ t :: after) (map some_value before ++ v :: map some_value after).
Proof.
  intros before t after v Sb Sa Hv. assert (forall l, Forall sound l -> Forall2 value_of l (map some_value l)) as D.
  { intros l Hl. induction Hl; cbn [map]; constructor; [now apply some_value_of | assumption]. }
  apply Forall2_app; [now apply D |]. constructor; [assumption | now apply D].
Qed.

Lemma keeps_iff : forall fields, Forall sound fields ->
  (keeps_messages fields <-> forall t, In t fields -> (exists bits, t = Primitive bits) \/ empty_of_news t).
Proof.
  intros fields So. split.
  - intros (read & R) t It. destruct (is_primitive t) eqn:P; [destruct t; try discriminate P; left; eexists; reflexivity |]. right. intros v w Hv Hw.
    apply in_split in It. destruct It as (before & after & ->).
    apply Forall_app in So. destruct So as [Sb So]. inversion So as [| ? ? St Sa]; subst.
    pose proof (R _ (message_with before t after v Sb Sa Hv)) as R1.
    pose proof (R _ (message_with before t after w Sb Sa Hw)) as R2.
    rewrite (store_same before t after v w P) in R1. rewrite R1 in R2.
    apply app_inv_head in R2. congruence.
  - intros H. exists (read_back fields). intros m M. apply read_back_ok; try assumption.
    intros t It. destruct (H t It) as [[bits ->] | E]; [now left | now right].
Qed.

Lemma primitives_kept : forall fields m m', message_of fields m -> message_of fields m' ->
  (store_structure fields m = store_structure fields m' <->
   forall i b, nth_error fields i = Some (Primitive b) -> nth_error m i = nth_error m' i).
Proof.
  intros fields m m' M. revert m'. induction M as [| t v fields m Hv M IH]; intros m' M'; inversion M' as [| ? w ? m2 Hw M2]; subst.
  - split; [intros _ [| i] b E; discriminate E | reflexivity].
  - cbn [store_structure]. specialize (IH m2 M2). destruct (is_primitive t) eqn:P.
    + split.
      * intros E [| i] b N; cbn [nth_error] in *; inversion E; [reflexivity |]. eapply (proj1 IH); eassumption.
      * intros H. destruct t; try discriminate P. f_equal.
        { specialize (H 0%nat _ eq_refl). cbn [nth_error] in H. congruence. }
        apply (proj2 IH). intros i b N. exact (H (Datatypes.S i) b N).
    + split.
      * intros E [| i] b N; cbn [nth_error] in *; [inversion N; subst; discriminate P |]. eapply (proj1 IH); eassumption.
      * intros H. apply (proj2 IH). intros i b N. exact (H (Datatypes.S i) b N).
Qed.

Lemma some_message : forall fields, Forall sound fields -> message_of fields (map some_value fields).
Proof. intros fields H. induction H; cbn [map]; constructor; [now apply some_value_of | assumption]. Qed.
Lemma only_message : forall fields m, Forall sound fields -> (forall t, In t fields -> empty_of_news t) -> message_of fields m -> map some_value fields = m.
Proof.
  intros fields m So H M. induction M as [| t v fields m Hv M IH]; [reflexivity |]. inversion So; subst. cbn [map]. f_equal.
  - apply (H t (or_introl eq_refl)); [now apply some_value_of | assumption].
  - apply IH; [assumption |]. intros x Hx. apply H. now right.
Qed.
Lemma service_iff : forall request response, Forall sound request -> Forall sound response ->
  (keeps_service request response <-> forall t, In t (request ++ response) -> empty_of_news t).
Proof.
  intros request response Sq Sp. split.
  - intros (read & R).
    assert (forall (side : bool) t, In t (if side then request else response) -> empty_of_news t) as G.
    { intros side t Ht v w Hv Hw. apply in_split in Ht. destruct Ht as (before & after & E).
      assert (Forall sound (before ++ t :: after)) as So by (rewrite <- E; now destruct side).
      apply Forall_app in So. destruct So as [Sb Sa]. inversion Sa as [| ? ? _ Sa']; subst.
      pose proof (message_with before t after v Sb Sa' Hv) as Mv. pose proof (message_with before t after w Sb Sa' Hw) as Mw.
      rewrite <- E in Mv, Mw. pose proof (R side _ Mv) as Rv. pose proof (R side _ Mw) as Rw. unfold store_service in Rv, Rw.
      rewrite Rv in Rw. apply app_inv_head in Rw. now injection Rw. }
    intros t Ht. apply in_app_iff in Ht. destruct Ht as [Ht | Ht]; [exact (G true t Ht) | exact (G false t Ht)].
  - intros H. exists (fun (side : bool) _ => map some_value (if side then request else response)).
    intros side m M. destruct side; (apply only_message; [assumption | | assumption]); intros t Ht; apply H; apply in_app_iff; auto.
Qed.
