(** C107: reading a document twice. *)
From Coq Require Import SpecFloat.
From Verif Require Import Base Num OMap OMapSpec Keys Yaml Values Assign Formats Meta Out Xml Example Doc DataType Marshal Api Library TypeFacts Fields ApiFields FacetSpec FieldProofs Into IntoSpec IntoProofs PropertiesInto.

Local Notation s_ := str_node.
Local Notation m_ := (Map TMap).

(** No key of a map is not a number: every key is equal to itself. *)
Definition steady {V} (m : amap gkey V) : Prop := Forall (fun e => gkey_eqb (fst e) (fst e) = true) (ents m).

(** ** Laying the same thing over twice *)
Lemma filter_own {K V} (same : K -> K -> bool) (n : amap K V) : Forall (fun e => same (fst e) (fst e) = true) (ents n) ->
  filter (fun e => negb (existsb (fun e' => same (fst e') (fst e)) (ents n))) (ents n) = [].
Proof.
  intros H. assert (X : forall l, incl l (ents n) -> filter (fun e => negb (existsb (fun e' => same (fst e') (fst e)) (ents n))) l = []).
  { induction l as [|e l IH]; intros Hl; [reflexivity|]. cbn [filter].
    assert (T : existsb (fun e' => same (fst e') (fst e)) (ents n) = true).
    { apply existsb_exists. exists e. split; [apply Hl; left; reflexivity|]. rewrite Forall_forall in H. apply H. apply Hl. left. reflexivity. }
    rewrite T. cbn [negb]. apply IH. intros x Hx. apply Hl. right. exact Hx. }
  apply X. apply incl_refl.
Qed.
Lemma merged_self {K V} (same : K -> K -> bool) (n : amap K V) : Forall (fun e => same (fst e) (fst e) = true) (ents n) -> merged same n n = n.
Proof. intros H. unfold merged. rewrite (filter_own same n H). destruct n; reflexivity. Qed.
Lemma merged_twice {K V} (same : K -> K -> bool) (o n : amap K V) : Forall (fun e => same (fst e) (fst e) = true) (ents n) -> merged same (merged same o n) n = merged same o n.
Proof.
  intros H. unfold merged. cbn [ents oord]. f_equal. f_equal. rewrite filter_app.
  assert (E1 : forall l : list (K * V), filter (fun e => negb (existsb (fun e' => same (fst e') (fst e)) (ents n))) (filter (fun e => negb (existsb (fun e' => same (fst e') (fst e)) (ents n))) l)
     = filter (fun e => negb (existsb (fun e' => same (fst e') (fst e)) (ents n))) l).
  { intros l. induction l as [|e l IH]; [reflexivity|]. cbn [filter]. destruct (negb (existsb (fun e' => same (fst e') (fst e)) (ents n))) eqn:E; [cbn [filter]; rewrite E, IH; reflexivity|exact IH]. }
  rewrite E1, (filter_own same n H), app_nil_r. reflexivity.
Qed.
Lemma merged_s_twice {V} (o n : amap string V) : merged_s (merged_s o n) n = merged_s o n.
Proof. apply merged_twice. apply Forall_forall. intros e _. apply String.eqb_refl. Qed.
Lemma merged_s_self {V} (n : amap string V) : merged_s n n = n.
Proof. apply merged_self. apply Forall_forall. intros e _. apply String.eqb_refl. Qed.
Lemma newer_twice {A} (o n : option A) : newer (newer o n) n = newer o n.
Proof. destruct n; reflexivity. Qed.

Section Facts.
  Context {F : FloatIO}.

  Lemma over_field_twice f l x y : f <> FEnum -> (match y with VExtra m => steady m | VVals _ => False | _ => True end) -> over_field f l (over_field f l x y) y = over_field f l x y.
  Proof.
    intros Hf Hy. destruct x; destruct y; cbn [over_field];
      repeat match goal with
      | |- context [facet_key ?f] => destruct (facet_key f) eqn:?
      | |- context [if ?c then _ else _] => destruct c eqn:?
      end; cbn [over_field];
      repeat match goal with
      | H : facet_key ?f = _ |- context [facet_key ?f] => rewrite H
      | H : ?c = _ |- context [if ?c then _ else _] => rewrite H
      end; try reflexivity; try (f_equal; apply newer_twice); try (f_equal; apply merged_s_twice); try contradiction.
    all: try (f_equal; apply merged_twice; exact Hy).
    all: repeat match goal with |- context [facet_key ?f] => destruct (facet_key f) eqn:? | |- context [if ?c then _ else _] => destruct c eqn:? end; try reflexivity.
    all: try (f_equal; match goal with |- newer ?n ?n = ?n => destruct n; reflexivity end).
    all: f_equal; first [apply merged_s_self | apply merged_self; exact Hy].
  Qed.

  Lemma vals_enum f d v : getf f d = Some (VVals v) -> f = FEnum.
  Proof. destruct d as [b|b x fs c s]; destruct f; cbn [getf]; try discriminate; try reflexivity; destruct s; discriminate. Qed.
  Lemma extra_extra f d v : getf f d = Some (VExtra v) -> f = FExtra.
  Proof. destruct d as [b|b x fs c s]; destruct f; cbn [getf]; try discriminate; try reflexivity; destruct s; discriminate. Qed.
End Facts.

(** C107.  API documents: reading a document that can be read once more succeeds, and changes nothing but the documentation and the media types: all pages of the document are there once more, and if
    all media types are given as strings, these too.  [api_into] (Into.v, C73_readers) gives the object and the outcome.  No unknown entry has a key that is not a number. *)
Theorem C107_api_partial (F : FloatIO) t l a : snd (api_into (Map t l) a) = Ok tt -> steady (a_extra (fst (api_into (Map t l) new_api))) ->
  let own := fst (api_into (Map t l) new_api) in let one := fst (api_into (Map t l) a) in let two := fst (api_into (Map t l) one) in
  snd (api_into (Map t l) one) = Ok tt /\
  a_set_documentation (a_documentation one) (a_set_mediaType (a_mediaType one) two) = one /\
  a_documentation two = longer (a_documentation one) (a_documentation own) /\
  a_mediaType two = (if adds_media l then longer (a_mediaType one) (a_mediaType own) else a_mediaType one).
Proof.
  intros H St own one two. destruct (C73_api F (Map t l) a) as [S1 O1]. specialize (O1 t l eq_refl H).
  destruct (C73_api F (Map t l) one) as [S2 O2]. assert (H2 : snd (api_into (Map t l) one) = Ok tt) by (rewrite S2, <- S1; exact H). specialize (O2 t l eq_refl H2).
  split; [exact H2|]. fold own in O1, O2, St. fold one in O1. fold two in O2. clearbody own one two. clear - O1 O2 St.
  destruct O1 as (A1 & A2 & A3 & A4 & A5 & A6 & A7 & A8 & A9 & A10 & A11 & A12 & A13 & A14 & A15 & A16 & A17 & A18).
  destruct O2 as (B1 & B2 & B3 & B4 & B5 & B6 & B7 & B8 & B9 & B10 & B11 & B12 & B13 & B14 & B15 & B16 & B17 & B18).
  split; [|split; [exact B8|rewrite B7; destruct (adds_media l); [reflexivity|symmetry; exact A7]]].
  rewrite A2, newer_twice, <- A2 in B2. rewrite A3, newer_twice, <- A3 in B3. rewrite A4, newer_twice, <- A4 in B4. rewrite A5, newer_twice, <- A5 in B5. rewrite A6, newer_twice, <- A6 in B6.
  rewrite A9, merged_s_twice, <- A9 in B9. rewrite A10, merged_s_twice, <- A10 in B10. rewrite A11, merged_s_twice, <- A11 in B11. rewrite A12, merged_s_twice, <- A12 in B12.
  rewrite A13, merged_s_twice, <- A13 in B13. rewrite A14, merged_s_twice, <- A14 in B14. rewrite A15, merged_s_twice, <- A15 in B15. rewrite A16, merged_s_twice, <- A16 in B16.
  rewrite A17, merged_s_twice, <- A17 in B17. unfold merged_g in *. rewrite A18, (merged_twice gkey_eqb _ _ St), <- A18 in B18.
  assert (B1' : a_title two = a_title one) by (rewrite B1, A1; destruct (says "title" l); reflexivity).
  clear A1 A2 A3 A4 A5 A6 A7 A8 A9 A10 A11 A12 A13 A14 A15 A16 A17 A18 B1 B7 B8 St. unfold a_set_documentation, a_set_mediaType. destruct one, two. cbn in *. subst. reflexivity.
Qed.
Print Assumptions C107_api_partial.

(** Libraries. *)
Theorem C107_library_partial (F : FloatIO) n a : snd (lib_into n a) = Ok tt -> steady (l_extra (fst (lib_into n new_library))) ->
  lib_into n (fst (lib_into n a)) = (fst (lib_into n a), Ok tt).
Proof.
  intros H St. destruct n as [t s|t s|t l]; [discriminate H|discriminate H|].
  destruct (C73_library F (Map t l) a) as [S1 O1]. specialize (O1 t l eq_refl H). destruct (C73_library F (Map t l) (fst (lib_into (Map t l) a))) as [S2 O2].
  assert (H2 : snd (lib_into (Map t l) (fst (lib_into (Map t l) a))) = Ok tt) by (rewrite S2, <- S1; exact H). specialize (O2 t l eq_refl H2).
  destruct (lib_into (Map t l) (fst (lib_into (Map t l) a))) as [two r] eqn:E. cbn [fst snd] in *. rewrite H2. f_equal. clear - O1 O2 St.
  set (one := fst (lib_into (Map t l) a)) in *. set (own := fst (lib_into (Map t l) new_library)) in *. clearbody own one.
  destruct O1 as (A1 & A2 & A3 & A4 & A5 & A6 & A7 & A8 & A9). destruct O2 as (B1 & B2 & B3 & B4 & B5 & B6 & B7 & B8 & B9).
  rewrite A1, newer_twice, <- A1 in B1. rewrite A2, merged_s_twice, <- A2 in B2. rewrite A3, merged_s_twice, <- A3 in B3. rewrite A4, merged_s_twice, <- A4 in B4.
  rewrite A5, merged_s_twice, <- A5 in B5. rewrite A6, merged_s_twice, <- A6 in B6. rewrite A7, merged_s_twice, <- A7 in B7. rewrite A8, merged_s_twice, <- A8 in B8.
  unfold merged_g in *. rewrite A9, (merged_twice gkey_eqb _ _ St), <- A9 in B9. clear A1 A2 A3 A4 A5 A6 A7 A8 A9 St. destruct one, two. cbn in *. subst. reflexivity.
Qed.
Print Assumptions C107_library_partial.

(** Types: nothing but the enum, whose values are there once more. *)
Theorem C107_type_partial (F : FloatIO) t l a : t <> TStr -> shaped a -> snd (type_into (Map t l) a) = Ok tt ->
  let own := fst (type_into (Map t l) (new_type (d_kind a))) in let one := fst (type_into (Map t l) a) in let two := fst (type_into (Map t l) one) in
  (forall m, getf FExtra own = Some (VExtra m) -> steady m) ->
  snd (type_into (Map t l) one) = Ok tt /\ d_kind two = d_kind one /\ (forall f, f <> FEnum -> getf f two = getf f one) /\
  forall o v, getf FEnum one = Some (VVals o) -> getf FEnum own = Some (VVals v) -> getf FEnum two = Some (VVals (longer o v)).
Proof.
  intros Ht Sh H own one two St.
  assert (Sh1 : shaped one).
  { pose proof (type_run t l a Ht) as R. destruct (type_into (Map t l) a) as [x r] eqn:E. cbn [snd] in H. rewrite H in R. cbn in R. symmetry in R. apply fold_kind in R as [K S].
    unfold one, shaped. cbn [fst]. rewrite K. eapply same_shape_trans; [exact S|exact Sh]. }
  destruct (C73_type F (Map t l) a Sh) as [S1 O1]. specialize (O1 t l eq_refl Ht H).
  destruct (C73_type F (Map t l) one Sh1) as [S2 O2]. destruct O1 as [K1 G1]. fold one in K1, G1. fold own in G1. rewrite K1 in S2, O2.
  assert (H2 : snd (type_into (Map t l) one) = Ok tt) by (rewrite S2, <- S1; exact H). specialize (O2 t l eq_refl Ht H2). destruct O2 as [K2 G2]. fold two in K2, G2. fold own in G2.
  split; [exact H2|]. split; [exact K2|]. split; [|intros o v Ho Hv; rewrite G2, Ho, Hv; reflexivity]. intros f Hf. rewrite G2, G1. destruct (getf f a) as [x|]; [|reflexivity]. destruct (getf f own) as [y|] eqn:Ey; [|reflexivity]. f_equal.
  apply over_field_twice; [exact Hf|]. destruct y; try exact I; [exact (Hf (vals_enum f own _ Ey))|]. apply St. rewrite <- Ey. f_equal. symmetry. exact (extra_extra f own _ Ey).
Qed.
Print Assumptions C107_type_partial.

(** Examples, XML settings, documentation. *)
Theorem C107_example_partial (F : FloatIO) kd t l a : snd (ex_into kd (Map t l) a) = Ok tt -> steady (ex_extra (fst (ex_into kd (Map t l) new_ex))) ->
  ex_into kd (Map t l) (fst (ex_into kd (Map t l) a)) = (fst (ex_into kd (Map t l) a), Ok tt).
Proof.
  intros H St. destruct (C73_example F kd (Map t l) a) as [S1 O1]. specialize (O1 t l eq_refl H). destruct (C73_example F kd (Map t l) (fst (ex_into kd (Map t l) a))) as [S2 O2].
  assert (H2 : snd (ex_into kd (Map t l) (fst (ex_into kd (Map t l) a))) = Ok tt) by (rewrite S2, <- S1; exact H). specialize (O2 t l eq_refl H2).
  destruct (ex_into kd (Map t l) (fst (ex_into kd (Map t l) a))) as [two r] eqn:E. cbn [fst snd] in *. rewrite H2. f_equal. clear - O1 O2 St.
  set (one := fst (ex_into kd (Map t l) a)) in *. set (own := fst (ex_into kd (Map t l) new_ex)) in *. clearbody own one.
  destruct O1 as (A1 & A2 & A3 & A4 & A5 & A6). destruct O2 as (B1 & B2 & B3 & B4 & B5 & B6).
  rewrite A1, newer_twice, <- A1 in B1. rewrite A2, newer_twice, <- A2 in B2. rewrite A3, merged_s_twice, <- A3 in B3. rewrite A4, newer_twice, <- A4 in B4.
  assert (B5' : ex_strict two = ex_strict one) by (rewrite B5, A5; destruct (says "strict" l); reflexivity).
  unfold merged_g in *. rewrite A6, (merged_twice gkey_eqb _ _ St), <- A6 in B6. clear A1 A2 A3 A4 A5 A6 B5 St. destruct one, two. cbn in *. subst. reflexivity.
Qed.
Print Assumptions C107_example_partial.

Theorem C107_documentation_partial (F : FloatIO) t l a : snd (doc_into (Map t l) a) = Ok tt -> steady (doc_extra (fst (doc_into (Map t l) new_doc))) ->
  doc_into (Map t l) (fst (doc_into (Map t l) a)) = (fst (doc_into (Map t l) a), Ok tt).
Proof.
  intros H St. destruct (C73_documentation F (Map t l) a) as [S1 O1]. specialize (O1 t l eq_refl H). destruct (C73_documentation F (Map t l) (fst (doc_into (Map t l) a))) as [S2 O2].
  assert (H2 : snd (doc_into (Map t l) (fst (doc_into (Map t l) a))) = Ok tt) by (rewrite S2, <- S1; exact H). specialize (O2 t l eq_refl H2).
  destruct (doc_into (Map t l) (fst (doc_into (Map t l) a))) as [two r] eqn:E. cbn [fst snd] in *. rewrite H2. f_equal. clear - O1 O2 St.
  set (one := fst (doc_into (Map t l) a)) in *. set (own := fst (doc_into (Map t l) new_doc)) in *. clearbody own one.
  destruct O1 as (A1 & A2 & A3). destruct O2 as (B1 & B2 & B3).
  assert (B1' : doc_title two = doc_title one) by (rewrite B1, A1; destruct (spells "title" l); reflexivity).
  assert (B2' : doc_content two = doc_content one) by (rewrite B2, A2; destruct (spells "content" l); reflexivity).
  unfold merged_g in *. rewrite A3, (merged_twice gkey_eqb _ _ St), <- A3 in B3. clear A1 A2 A3 B1 B2 St. destruct one, two. cbn in *. subst. reflexivity.
Qed.
Print Assumptions C107_documentation_partial.

Theorem C107_xml (F : FloatIO) t l a : snd (xml_into (Map t l) a) = Ok tt ->
  let one := fst (xml_into (Map t l) a) in let two := fst (xml_into (Map t l) one) in
  snd (xml_into (Map t l) one) = Ok tt /\ xml_attr two = xml_attr one /\ xml_wrap two = xml_wrap one /\ xml_name two = xml_name one /\ xml_ns two = xml_ns one /\
  xml_pref two = xml_pref one /\ forall k, held k (xml_extra two) = held k (xml_extra one).
Proof.
  intros H one two. destruct (C73_xml F (Map t l) a) as [S1 O1]. specialize (O1 t l eq_refl H). destruct (C73_xml F (Map t l) one) as [S2 O2].
  assert (H2 : snd (xml_into (Map t l) one) = Ok tt) by (rewrite S2, <- S1; exact H). specialize (O2 t l eq_refl H2). split; [exact H2|].
  fold one in O1. fold two in O2. destruct O1 as (A1 & A2 & A3 & A4 & A5 & A6). destruct O2 as (B1 & B2 & B3 & B4 & B5 & B6).
  rewrite A1, newer_twice, <- A1 in B1. rewrite A2, newer_twice, <- A2 in B2. rewrite A3, newer_twice, <- A3 in B3. rewrite A4, newer_twice, <- A4 in B4. rewrite A5, newer_twice, <- A5 in B5.
  repeat (split; [assumption|]). intros k. rewrite B6, A6, newer_twice. reflexivity.
Qed.
Print Assumptions C107_xml.

(** A page of documentation is there twice, a media type too, and a value of an enum. *)
Theorem C107_refuted (F : FloatIO) :
  (exists n a a', api_unmarshal n new_api = Ok a /\ api_unmarshal n a = Ok a' /\ option_map (@List.length doc) (a_documentation a) = Some 1 /\ option_map (@List.length doc) (a_documentation a') = Some 2 /\
    a_mediaType a = Some ["text/plain"%string] /\ a_mediaType a' = Some ["text/plain"%string; "text/plain"%string]) /\
  (exists n d d', hat n = Ok d /\ run_assign (type_into n d) = Ok d' /\ getf FEnum d = Some (VVals (Some [GStr "a"])) /\ getf FEnum d' = Some (VVals (Some [GStr "a"; GStr "a"]))).
Proof.
  split.
  - exists (m_ [(s_ "title", s_ "T"); (s_ "mediaType", s_ "text/plain"); (s_ "documentation", Seq TSeq [m_ [(s_ "title", s_ "t"); (s_ "content", s_ "c")]])]).
    do 2 eexists. split; [reflexivity|]. split; [reflexivity|]. repeat split; reflexivity.
  - exists (m_ [(s_ "type", s_ "string"); (s_ "enum", Seq TSeq [s_ "a"])]). do 2 eexists. split; [reflexivity|]. split; [reflexivity|]. split; reflexivity.
Qed.
Print Assumptions C107_refuted.

#[local] Instance toy : FloatIO := { float_of := fun _ s => None; float_text := fun _ => (TFloat, "0.5"%string) }.
Definition some_document : node :=
  m_ [(s_ "title", s_ "T"); (s_ "types", m_ [(s_ "A", s_ "string"); (s_ "B", s_ "A")]); (s_ "schemas", m_ [(s_ "A", s_ "integer")]); (s_ "odd", s_ "x"); (Scal TInt "7", s_ "y")].
Definition some_library : node := m_ [(s_ "usage", s_ "u"); (s_ "types", m_ [(s_ "A", s_ "string"); (s_ "B", s_ "A")]); (s_ "schemas", m_ [(s_ "A", s_ "integer")]); (s_ "odd", s_ "x")].
Example C107_case :
  (snd (api_into some_document new_api) = Ok tt /\ steady (a_extra (fst (api_into some_document new_api))) /\
   fst (api_into some_document (fst (api_into some_document new_api))) = fst (api_into some_document new_api)) /\
  (snd (lib_into some_library new_library) = Ok tt /\ steady (l_extra (fst (lib_into some_library new_library))) /\
   map fst (ents (l_types (fst (lib_into some_library new_library)))) = ["B"%string; "A"%string]).
Proof. split; [split; [reflexivity|]; split; [vm_compute; repeat constructor|vm_compute; reflexivity]|split; [reflexivity|]; split; [vm_compute; repeat constructor|vm_compute; reflexivity]]. Qed.
Definition some_definition : node := m_ [(s_ "type", s_ "object"); (s_ "properties", m_ [(s_ "p", s_ "string")]); (s_ "minProperties", Scal TInt "1"); (s_ "odd", s_ "x")].
Example C107_type_case : shaped (new_type TyObject) /\ snd (type_into some_definition (new_type TyObject)) = Ok tt /\
  (forall m, getf FExtra (fst (type_into some_definition (new_type TyObject))) = Some (VExtra m) -> steady m) /\
  getf FMinProps (fst (type_into some_definition (fst (type_into some_definition (new_type TyObject))))) = Some (VOptInt (Some 1%Z)).
Proof. split; [reflexivity|]. split; [reflexivity|]. split; [|reflexivity]. intros m H. vm_compute in H. injection H as <-. vm_compute. repeat constructor. Qed.
