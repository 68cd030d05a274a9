(** C104: what the kinds of types have in common. *)
From Coq Require Import SpecFloat.
From Verif Require Import Base Num OMap OMapSpec Keys Yaml Values Assign Formats Meta Out Xml Example DataType Marshal TypeFacts Fields Override TypesCommonSpec.

Local Notation s_ := str_node.
Local Notation m_ := (Map TMap).

Lemma kput_in {V} k (v : V) m x : In x (ents (kput k v m)) -> x = (k, v) \/ In x (ents m).
Proof. cbn. unfold sput, sdelete. intros H. apply in_app_or in H as [H|[<-|[]]]; [|auto]. apply filter_In in H as [H _]. auto. Qed.
Lemma mput_in {V} k (v : V) m x : In x (ents (mput k v m)) -> x = (k, v) \/ In x (ents m).
Proof. cbn. unfold sput, sdelete. intros H. apply in_app_or in H as [H|[<-|[]]]; [|auto]. apply filter_In in H as [H _]. auto. Qed.

Section Facts.
  Context {F : FloatIO}.

  Lemma not_in_eqb k s l : ~ In k l -> In s l -> String.eqb k s = false.
  Proof. intros H Hs. apply String.eqb_neq. intros ->. exact (H Hs). Qed.
  Ltac out H s := rewrite (not_in_eqb _ s _ H) by (cbn [In own_keys]; tauto).

  (** A definition whose kind has facets, none of its own set, of the type [s] *)
  Definition fresh (d : dtype) : Prop :=
    match d with TBase _ => False
    | TExt b x f c p => c = new_common /\ p = new_spec (b_kind b) /\ (forall k, In k (map fst (ents (b_extra b))) -> k <> KStr "type") /\
                        (forall k, In k (map fst (ents (x_anns x))) -> k <> "type"%string) /\ b_kind b <> TyInclude end.
  Definition pair_ (d d' : dtype) : Prop := fresh d /\ fresh d' /\ alike d d'.

  Lemma no_spec k key val : ~ In key own_keys -> spec_assign hat (new_spec k) key val = None.
  Proof.
    intros H.
    destruct k; cbn [new_spec spec_assign]; try reflexivity;
      repeat (rewrite (not_in_eqb key _ own_keys H) by (cbn [In own_keys]; tauto)); reflexivity.
  Qed.

  Lemma step d d' e : pair_ d d' -> plain e -> outcomes pair_ (type_assign hat d e) (type_assign hat d' e).
  Proof.
    intros [Hd [Hd' [A X]]] [Pt Po]. destruct d as [b|b x f c p]; [destruct Hd|]. destruct d' as [b'|b' x' f' c' p']; [destruct Hd'|].
    destruct Hd as [-> [-> [Nt [Na Ni]]]]. destruct Hd' as [-> [-> [Nt' [Na' Ni']]]]. cbn [answers_of extra_facets] in A, X.
    assert (Ex : x = x') by (destruct x, x'; cbn in A; injection A; intros; subst; reflexivity). assert (Ef : f = f') by (injection A; intros; assumption). subst x' f'. clear A.
    unfold type_assign. out Po "example"%string. out Po "examples"%string. out Po "enum"%string. rewrite !no_spec by exact Po.
    destruct (String.eqb (value (fst e)) KeyRequired).
    { destruct (run_assign (as_bool (snd e) (x_required x))); cbn [bind outcomes]; try exact I. unfold pair_, fresh, alike. cbn. rewrite X in *. repeat split; auto. }
    unfold ext_assign. destruct (String.eqb (value (fst e)) KeyDisplayName).
    { destruct (run_assign (as_string_ptr (snd e) (x_display x))); cbn [bind outcomes]; try exact I. unfold pair_, fresh, alike. cbn. rewrite X in *. repeat split; auto. }
    destruct (String.eqb (value (fst e)) KeyDescription).
    { destruct (run_assign (as_string_ptr (snd e) (x_descr x))); cbn [bind outcomes]; try exact I. unfold pair_, fresh, alike. cbn. rewrite X in *. repeat split; auto. }
    destruct (String.eqb (value (fst e)) KeyFacets).
    { destruct (read_facets hat f (snd e)); cbn [bind outcomes]; try exact I. unfold pair_, fresh, alike. cbn. rewrite X in *. repeat split; auto. }
    destruct (String.eqb (value (fst e)) KeyXML).
    { destruct (xml_unmarshal (snd e) new_xml); cbn [bind outcomes]; try exact I. unfold pair_, fresh, alike. cbn. rewrite X in *. repeat split; auto. }
    destruct (if is_string (fst e) then annotations_in (value (fst e)) (snd e) (x_anns x) else Ok None) as [[a|]| |] eqn:Ea; cbn [bind outcomes]; try exact I.
    - assert (Ha : forall k, In k (map fst (ents a)) -> k <> "type"%string).
      { destruct (is_string (fst e)); [|discriminate Ea]. unfold annotations_in in Ea. destruct (value (fst e)) as [|ch r] eqn:Ev; [discriminate Ea|].
        destruct (Ascii.eqb ch "("); [|discriminate Ea]. destruct (read_annotation (snd e)) as [m| |]; cbn [bind] in Ea; try discriminate Ea. injection Ea as <-.
        intros k Hk. apply in_map_iff in Hk as [y [Hy Hin]]. apply mput_in in Hin as [->|Hin].
        - cbn in Hy. subst k. intros E. apply Pt. left. symmetry. exact E.
        - apply Na. apply in_map_iff. exists y. split; assumption. }
      unfold pair_, fresh, alike. cbn. rewrite X in *. repeat split; auto.
    - unfold base_assign. rewrite (not_in_eqb _ "type"%string _ Pt), (not_in_eqb _ "schema"%string _ Pt) by (cbn [In]; tauto). cbn [orb bind outcomes].
      assert (He : forall m : amap gkey gval, (forall k, In k (map fst (ents m)) -> k <> KStr "type") -> forall k, In k (map fst (ents (kput (KStr (value (fst e))) (GNode (snd e)) m))) -> k <> KStr "type").
      { intros m Hm k Hk. apply in_map_iff in Hk as [y [Hy Hin]]. apply kput_in in Hin as [->|Hin].
        - cbn in Hy. subst k. intros E. injection E as E. apply Pt. left. symmetry. exact E.
        - apply Hm. apply in_map_iff. exists y. split; assumption. }
      unfold pair_, fresh, alike. cbn [answers_of extra_facets b_extra b_kind]. rewrite X in *. repeat split; auto; apply He; assumption.
  Qed.

  Lemma steps l : Forall plain l -> forall d d', pair_ d d' -> outcomes pair_ (fold_res (type_assign hat) d l) (fold_res (type_assign hat) d' l).
  Proof.
    induction 1 as [|e l He Hl IH]; intros d d' P; cbn [fold_res]; [exact P|]. pose proof (step d d' e P He) as S.
    destruct (type_assign hat d e), (type_assign hat d' e); cbn [outcomes bind] in *; try contradiction; try exact I. apply IH. exact S.
  Qed.

  Lemma fold_app {A B} (f : A -> B -> res A) l : forall l' a, fold_res f a (l ++ l') = bind (fold_res f a l) (fun a' => fold_res f a' l').
  Proof. induction l as [|x l IH]; intros l' a; [reflexivity|]. cbn [app fold_res]. destruct (f a x); cbn [bind]; auto. Qed.

  Lemma type_key k : In (value k) ["type"%string; "schema"%string] -> String.eqb (value k) KeyType || String.eqb (value k) KeySchema = true.
  Proof. intros [H|[H|[]]]; rewrite <- H; reflexivity. Qed.

  Lemma scan pre k v post a b : Forall plain pre -> In (value k) ["type"%string; "schema"%string] -> exists p i, sift_scan (pre ++ (k, v) :: post) a b = (Some v, p, i).
  Proof.
    intros H Hk. revert a b. induction H as [|[k' v'] pre [Pt Po] Hp IH]; intros a b; cbn [app sift_scan].
    - rewrite (type_key k Hk). eauto.
    - cbn [fst] in Pt. rewrite (not_in_eqb _ "type"%string _ Pt), (not_in_eqb _ "schema"%string _ Pt) by (cbn [In]; tauto). cbn [orb]. apply IH.
  Qed.
  Lemma read pre k s post : Forall plain pre -> In (value k) ["type"%string; "schema"%string] ->
    hat (typed pre k s post) = fold_res (type_assign hat) (type_to_kind s) (pre ++ (k, s_ s) :: post).
  Proof. intros H Hk. unfold typed. cbn [hat]. unfold hat_body. cbn [is_string node_tag]. unfold sift_type. destruct (scan pre k (s_ s) post false false H Hk) as [p [i ->]]. reflexivity. Qed.

  Lemma kinds s : bare s = false -> exists b, type_to_kind s = TExt b new_ext anew new_common (new_spec (b_kind b)) /\ b_extra b = anew /\ b_kind b <> TyInclude.
  Proof.
    unfold bare. intros H. apply Bool.orb_false_iff in H as [H1 H2]. unfold type_to_kind. rewrite H1, H2.
    assert (N : forall q t, q <> TyNil -> q <> TyInclude -> exists b, set_schema t (new_type q) = TExt b new_ext anew new_common (new_spec (b_kind b)) /\ b_extra b = anew /\ b_kind b <> TyInclude).
    { intros q t Q1 Q2. exists (mkBase t q anew). destruct q; try congruence; (split; [reflexivity|split; [reflexivity|discriminate]]). }
    assert (N' : forall q, q <> TyNil -> q <> TyInclude -> exists b, new_type q = TExt b new_ext anew new_common (new_spec (b_kind b)) /\ b_extra b = anew /\ b_kind b <> TyInclude).
    { intros q Q1 Q2. exists (new_base q). destruct q; try congruence; (split; [reflexivity|split; [reflexivity|discriminate]]). }
    repeat match goal with |- context [if ?c then new_type _ else _] => destruct c; [apply N'; discriminate|] end.
    destruct (has_byte _ s); apply N; discriminate.
  Qed.
  Lemma bares s : bare s = true -> exists b, type_to_kind s = TBase b /\ b_extra b = anew.
  Proof.
    unfold bare. intros H. apply Bool.orb_true_iff in H as [H|H].
    - apply String.eqb_eq in H. subst s. eexists. split; reflexivity.
    - assert (N : forall t, has_prefix "!include " t = false -> String.eqb s t = false) by (intros t Ht; apply String.eqb_neq; intros ->; congruence).
      unfold type_to_kind. rewrite !N by reflexivity. rewrite H. eexists. split; reflexivity.
  Qed.

  Lemma typing k s d : In (value k) ["type"%string; "schema"%string] -> fresh d -> type_assign hat d (k, s_ s) = Ok (override_type s d).
  Proof.
    intros Hk H. destruct d as [b|b x f c p]; [destruct H|]. destruct H as [-> [-> _]]. cbn [value] in Hk.
    assert (Ho : ~ In (value k) own_keys) by (destruct Hk as [<-|[<-|[]]]; cbn; intuition discriminate).
    unfold type_assign. cbn [fst snd]. out Ho "example"%string. out Ho "examples"%string. out Ho "enum"%string. rewrite no_spec by exact Ho.
    destruct Hk as [Hk|[Hk|[]]]; unfold ext_assign, base_assign; rewrite <- Hk; cbn -[base_set_schema]; destruct (is_string k); reflexivity.
  Qed.
  Lemma pair_over d d' s s' : pair_ d d' -> pair_ (override_type s d) (override_type s' d').
  Proof. intros [H [H' [A X]]]. destruct d as [|b x f c p]; [destruct H|]. destruct d' as [|b' x' f' c' p']; [destruct H'|]. split; [exact H|split; [exact H'|split; assumption]]. Qed.

  (** Both outcomes, and the names that the two have in the end. *)
  Lemma both pre k s s' post : Forall plain pre -> Forall plain post -> In (value k) ["type"%string; "schema"%string] -> bare s = false -> bare s' = false ->
    outcomes (fun d d' => pair_ d d') (hat (typed pre k s post)) (hat (typed pre k s' post)).
  Proof.
    intros Hp Hq Hk B B'. rewrite !read by assumption. destruct (kinds s B) as [b [E [Eb Ei]]]. destruct (kinds s' B') as [b' [E' [Eb' Ei']]]. rewrite E, E'.
    assert (P0 : pair_ (TExt b new_ext anew new_common (new_spec (b_kind b))) (TExt b' new_ext anew new_common (new_spec (b_kind b')))).
    { unfold pair_, fresh, alike. cbn [answers_of extra_facets]. rewrite Eb, Eb'. cbn. repeat split; auto; intros k' []. }
    rewrite !fold_app. pose proof (steps pre Hp _ _ P0) as S.
    destruct (fold_res (type_assign hat) (TExt b _ _ _ _) pre) as [d| |] eqn:D, (fold_res (type_assign hat) (TExt b' _ _ _ _) pre) as [d'| |] eqn:D';
      cbn [outcomes bind] in *; try contradiction; try exact I.
    destruct S as [S1 [S2 S3]]. cbn [fold_res]. rewrite !typing by assumption. cbn [bind]. apply steps; [exact Hq|]. apply pair_over. exact (conj S1 (conj S2 S3)).
  Qed.

  (** The type is what the definition says. *)
  Lemma keeps l : Forall plain l -> forall d d', fresh d -> fold_res (type_assign hat) d l = Ok d' -> fresh d' /\ type_of d' = type_of d /\ d_kind d' = d_kind d.
  Proof.
    induction 1 as [|e l He Hl IH]; intros d d' Fd H; cbn [fold_res] in H; [injection H as <-; auto|].
    assert (P : pair_ d d) by (split; [exact Fd|split; [exact Fd|split; reflexivity]]).
    pose proof (step d d e P He) as S. destruct (type_assign hat d e) as [d1| |] eqn:E1; cbn [bind outcomes] in *; try discriminate H.
    destruct S as [F1 _]. destruct (IH d1 d' F1 H) as [G1 [G2 G3]]. split; [exact G1|]. rewrite G2, G3. clear - E1 He Fd.
    destruct d as [b|b x f c p]; [destruct Fd|]. destruct Fd as [-> [-> _]]. destruct He as [Pt Po]. unfold type_assign in E1.
    rewrite (not_in_eqb _ "example"%string _ Po), (not_in_eqb _ "examples"%string _ Po), (not_in_eqb _ "enum"%string _ Po) in E1 by (cbn [In own_keys]; tauto).
    rewrite no_spec in E1 by exact Po. destruct (String.eqb (value (fst e)) KeyRequired).
    { destruct (run_assign _) in E1; cbn [bind] in E1; try discriminate E1. injection E1 as <-. split; reflexivity. }
    unfold ext_assign in E1. repeat match type of E1 with context [if String.eqb ?a ?c then _ else _] => destruct (String.eqb a c) end.
    1,2: destruct (run_assign _) in E1; cbn [bind] in E1; try discriminate E1; injection E1 as <-; split; reflexivity.
    1: destruct (read_facets _ _ _) in E1; cbn [bind] in E1; try discriminate E1; injection E1 as <-; split; reflexivity.
    1: destruct (xml_unmarshal _ _) in E1; cbn [bind] in E1; try discriminate E1; injection E1 as <-; split; reflexivity.
    destruct (if is_string (fst e) then _ else _) as [[a|]| |] in E1; cbn [bind] in E1; try discriminate E1; [injection E1 as <-; split; reflexivity|].
    unfold base_assign in E1. rewrite (not_in_eqb _ "type"%string _ Pt), (not_in_eqb _ "schema"%string _ Pt) in E1 by (cbn [In]; tauto). cbn [orb bind] in E1.
    injection E1 as <-. split; reflexivity.
  Qed.
  Lemma says pre k s post d : Forall plain pre -> Forall plain post -> In (value k) ["type"%string; "schema"%string] -> bare s = false ->
    hat (typed pre k s post) = Ok d -> type_of d = s.
  Proof.
    intros Hp Hq Hk B H. rewrite read in H by assumption. destruct (kinds s B) as [b [E [Eb Ei]]]. rewrite E, fold_app in H.
    destruct (fold_res (type_assign hat) _ pre) as [d1| |] eqn:D; cbn [bind] in H; try discriminate H.
    apply keeps in D as [F1 _]; [|exact Hp|unfold fresh; rewrite Eb; cbn; repeat split; auto; intros k' []].
    cbn [fold_res] in H. rewrite typing in H by assumption. cbn [bind] in H. apply keeps in H as [_ [H _]]; [|exact Hq|destruct d1; [destruct F1|exact F1]].
    rewrite H. destruct d1; reflexivity.
  Qed.

  Lemma spec_quiet k o : spec_marshal to_yaml (new_spec k) o = o.
  Proof. destruct k; reflexivity. Qed.
  Lemma same_saved d d' : pair_ d d' -> to_yaml d' = to_yaml (override_type (type_of d') d).
  Proof.
    intros [H [H' [A X]]]. destruct d as [|b x f c p]; [destruct H|]. destruct d' as [|b' x' f' c' p']; [destruct H'|].
    destruct H as [-> [-> _]]. destruct H' as [-> [-> _]]. cbn [answers_of extra_facets] in A, X.
    assert (Ex : x = x') by (destruct x, x'; cbn in A; injection A; intros; subst; reflexivity). assert (Ef : f = f') by (injection A; intros; assumption). subst x' f'.
    rewrite !to_yaml_eq. cbn [override_type type_of type_marshal]. unfold full_marshal. rewrite !spec_quiet. unfold ext_marshal, base_marshal. cbn [b_schema b_extra]. rewrite X. reflexivity.
  Qed.
  Lemma not_hidden d : fresh d -> sorted d /\ ~ hides_type d /\ type_node (d_kind d) = str_node.
  Proof.
    destruct d as [|b x f c p]; [intros []|]. intros [_ [_ [Nt [Na Ni]]]]. split; [exact Ni|]. split.
    - intros [H|H]; [exact (Nt _ H eq_refl)|exact (Na _ H eq_refl)].
    - unfold type_node, d_kind. cbn [d_base]. destruct (b_kind b); try reflexivity. congruence.
  Qed.

  Lemma bare_fold l : Forall plain l -> forall b, exists b', fold_res (type_assign hat) (TBase b) l = Ok (TBase b') /\
    b_extra b' = fold_left (fun m e => kput (KStr (value (fst e))) (GNode (snd e)) m) l (b_extra b).
  Proof.
    induction 1 as [|e l [Pt Po] Hl IH]; intros b; cbn [fold_res fold_left]; [eauto|]. unfold type_assign at 1, base_assign.
    rewrite (not_in_eqb _ "type"%string _ Pt), (not_in_eqb _ "schema"%string _ Pt) by (cbn [In]; tauto). cbn [orb bind].
    destruct (IH (mkBase (b_schema b) (b_kind b) (kput (KStr (value (fst e))) (GNode (snd e)) (b_extra b)))) as [b' [E E']]. exists b'. split; assumption.
  Qed.
End Facts.

(** C104.  Reading: of two definitions that differ in the type only, [s] and [s'], neither of them nil or an include, and have otherwise only what all kinds have in common, both are
    accepted, or both rejected, or both crash, and when accepted DisplayName, Description, Annotations, XML, Required, FacetDefinitions and ExtraFacets answer the same. *)
Theorem C104_read_partial (F : FloatIO) pre k s s' post : Forall plain pre -> Forall plain post -> In (value k) ["type"; "schema"]%string -> bare s = false -> bare s' = false ->
  outcomes alike (hat (typed pre k s post)) (hat (typed pre k s' post)).
Proof.
  intros Hp Hq Hk B B'. pose proof (both pre k s s' post Hp Hq Hk B B') as H. destruct (hat (typed pre k s post)), (hat (typed pre k s' post)); cbn [outcomes] in *; try exact H.
  exact (proj2 (proj2 H)).
Qed.
Print Assumptions C104_read_partial.

(** Saving the two: both can be saved or neither, and what is saved is the same but for the type ([retyped], Override.v). *)
Theorem C104_saved_partial (F : FloatIO) pre k s s' post d d' : (forall x, fst (float_text x) <> TStr) ->
  Forall plain pre -> Forall plain post -> In (value k) ["type"; "schema"]%string -> bare s = false -> bare s' = false ->
  hat (typed pre k s post) = Ok d -> hat (typed pre k s' post) = Ok d' ->
  outcomes (retyped (s_ s) (s_ s')) (to_yaml d) (to_yaml d').
Proof.
  intros Fl Hp Hq Hk B B' H H'. pose proof (both pre k s s' post Hp Hq Hk B B') as P. rewrite H, H' in P. cbn [outcomes] in P.
  pose proof (says pre k s post d Hp Hq Hk B H) as T. pose proof (says pre k s' post d' Hp Hq Hk B' H') as T'.
  rewrite (same_saved d d' P), T'. destruct (not_hidden d (proj1 P)) as [So [Nh Tn]]. destruct (saved_override s' d Fl So Nh) as [S1 [S2 S3]]. rewrite Tn, T in S1.
  destruct (to_yaml d) as [n| |]; cbn [outcomes].
  - destruct (S1 n eq_refl) as [n' [-> R]]. exact R.
  - rewrite (proj1 S2 eq_refl). exact I.
  - rewrite (proj1 S3 eq_refl). exact I.
Qed.
Print Assumptions C104_saved_partial.

(** Definitions of nil, and those with a string that looks like an include: nothing is rejected and everything is an extra facet. *)
Theorem C104_bare (F : FloatIO) pre k s post : Forall plain pre -> Forall plain post -> In (value k) ["type"; "schema"]%string -> bare s = true ->
  exists d, hat (typed pre k s post) = Ok d /\ answers_of d = None /\
    extra_facets d = fold_left (fun m e => kput (KStr (value (fst e))) (GNode (snd e)) m) (pre ++ post) anew.
Proof.
  intros Hp Hq Hk B. rewrite read by assumption. destruct (bares s B) as [b [E Eb]]. rewrite E, fold_app.
  destruct (bare_fold pre Hp b) as [b1 [-> E1]]. cbn [bind fold_res]. unfold type_assign at 1, base_assign. cbn [fst snd]. rewrite (type_key k Hk). cbn [to_str bind].
  destruct (bare_fold post Hq (base_set_schema s b1)) as [b2 [E2 E2']]. exists (TBase b2). split; [exact E2|]. split; [reflexivity|].
  cbn [extra_facets]. rewrite E2', fold_left_app. cbn [base_set_schema b_extra]. rewrite E1, Eb. reflexivity.
Qed.
Print Assumptions C104_bare.

(** So the kinds do not treat alike what they have in common: of two definitions with the same other entries, one is rejected and the other is not, and of two others with a
    displayName both are accepted and only one has it. *)
Theorem C104_refuted (F : FloatIO) : exists l l', Forall plain l /\ Forall plain l' /\
  hat (typed [] (s_ "type") "string" l) = Err /\ (exists d, hat (typed [] (s_ "type") "nil" l) = Ok d) /\
  exists d d', hat (typed [] (s_ "type") "string" l') = Ok d /\ hat (typed [] (s_ "type") "nil" l') = Ok d' /\
    option_map ans_displayName (answers_of d) = Some (Some "Name"%string) /\ answers_of d' = None /\
    ents (extra_facets d) = [] /\ ents (extra_facets d') = [(KStr "displayName", GNode (s_ "Name"))].
Proof.
  exists [(s_ "required", s_ "perhaps")], [(s_ "displayName", s_ "Name")].
  split; [repeat constructor; cbn; intuition discriminate|]. split; [repeat constructor; cbn; intuition discriminate|].
  split; [reflexivity|]. split; [eexists; reflexivity|]. do 2 eexists. split; [reflexivity|]. split; [reflexivity|]. repeat split; reflexivity.
Qed.
Print Assumptions C104_refuted.

#[local] Instance toy : FloatIO := { float_of := fun _ s => None; float_text := fun _ => (TFloat, "0.5"%string) }.
Definition some_entries : list (node * node) :=
  [(s_ "displayName", s_ "Name"); (s_ "required", Scal TBool "false"); (s_ "(seen)", m_ [(s_ "by", s_ "me")]); (s_ "xml", m_ [(s_ "name", s_ "n")]); (s_ "odd", s_ "x"); (s_ "default", s_ "y")].
Example C104_case : Forall plain some_entries /\ bare "array" = false /\ bare "Person" = false /\
  (exists d, hat (typed [] (s_ "type") "array" some_entries) = Ok d /\ exists d', hat (typed [] (s_ "type") "Person" some_entries) = Ok d' /\
    to_yaml d = Ok (m_ [(s_ "displayName", s_ "Name"); (s_ "type", s_ "array"); (s_ "odd", s_ "x"); (s_ "default", s_ "y"); (s_ "required", Scal TBool "false");
                        (s_ "(seen)", Seq TOMap [m_ [(s_ "by", s_ "me")]]); (s_ "xml", m_ [])]) /\
    to_yaml d' = Ok (m_ [(s_ "displayName", s_ "Name"); (s_ "type", s_ "Person"); (s_ "odd", s_ "x"); (s_ "default", s_ "y"); (s_ "required", Scal TBool "false");
                        (s_ "(seen)", Seq TOMap [m_ [(s_ "by", s_ "me")]]); (s_ "xml", m_ [])])) /\
  hat (typed [] (s_ "type") "array" [(s_ "required", s_ "perhaps")]) = Err.
Proof.
  split; [repeat constructor; cbn; intuition discriminate|]. split; [reflexivity|]. split; [reflexivity|]. split; [|reflexivity].
  eexists. split; [vm_compute; reflexivity|]. eexists. split; [vm_compute; reflexivity|]. split; vm_compute; reflexivity.
Qed.
