(** C99: an alias is the same as what it stands for. *)
From Coq Require Import SpecFloat.
From Verif Require Import Base Num OMap OMapSpec Keys Yaml Values Assign Meta Out Xml Example DataType Doc Api Library AliasSpec AliasProofs.

Local Notation s_ := str_node.
Local Notation m_ := (Map TMap).
Local Notation w_ := (WScal None TStr).
Local Notation wm_ := (WMap None TMap).

(** ** The code does not do that *)

(** A definition with a name, and a second place where it is used. *)
Definition named : text := WMap (Some "a") TMap [(w_ "type", w_ "string"); (w_ "minLength", WScal None TInt "1")].
Definition named_node : node := m_ [(s_ "type", s_ "string"); (s_ "minLength", Scal TInt "1")].
Definition meaning (name : string) : node := named_node.
Definition object_twice (second : text) : text := wm_ [(w_ "type", w_ "object"); (w_ "properties", wm_ [(w_ "p", named); (w_ "q", second)])].
Definition types_twice (second : text) : text := wm_ [(w_ "types", wm_ [(w_ "P", named); (w_ "Q", second)])].

(** The second use as an alias, and with a merge key *)
Definition by_alias : text := WAlias "a".
Definition by_merge : text := wm_ [(WScal None TMerge "<<", WAlias "a")].

Ltac by_parts := intros; cbn in *;
  repeat match goal with
  | H : _ \/ _ |- _ => destruct H as [H|H]
  | H : False |- _ => contradiction
  | H : _ = _ |- _ => first [discriminate H|injection H; clear H; intros; subst; cbn in *|subst; cbn in *]
  end; try contradiction; try reflexivity; try congruence; try (unfold no_tag; congruence).
Lemma object_stands second : second = by_alias \/ second = by_merge -> stands_for meaning (object_twice second).
Proof.
  intros [-> | ->]; (split; [intros p a; by_parts|intros a H; exists named; split; [cbn; tauto|by_parts]]).
Qed.
Lemma types_stand second : second = by_alias \/ second = by_merge -> stands_for meaning (types_twice second).
Proof.
  intros [-> | ->]; (split; [intros p a; by_parts|intros a H; exists named; split; [cbn; tauto|by_parts]]).
Qed.

(** Whatever tag an alias is seen with. *)
Theorem C99_refuted (F : FloatIO) tag_of :
  ~ means_the_same tag_of hat /\ ~ means_the_same tag_of (fun n => api_unmarshal n new_api) /\ ~ means_the_same tag_of (fun n => lib_unmarshal n new_library).
Proof.
  split; [|split]; intros H.
  - specialize (H meaning (object_twice by_alias) (object_stands _ (or_introl eq_refl))). cbn in H. destruct (tag_of "a"); discriminate.
  - specialize (H meaning (types_twice by_alias) (types_stand _ (or_introl eq_refl))). cbn in H. destruct (tag_of "a"); discriminate.
  - specialize (H meaning (types_twice by_alias) (types_stand _ (or_introl eq_refl))). cbn in H. destruct (tag_of "a"); discriminate.
Qed.
Print Assumptions C99_refuted.

(** A merge key is worse: the document is loaded, without what should have been merged. *)
Theorem C99_merge_refuted (F : FloatIO) tag_of :
  exists a b, hat (seen tag_of (object_twice by_merge)) = Ok a /\ hat (full meaning (object_twice by_merge)) = Ok b /\
    match a, b with
    | TExt _ _ _ _ (SObject ps _ _ _ _ _), TExt _ _ _ _ (SObject qs _ _ _ _ _) =>
      match sget String.eqb "q" (ents ps), sget String.eqb "q" (ents qs) with
      | Some (TExt _ _ _ _ (SString _ 0%Z _)), Some (TExt _ _ _ _ (SString _ 1%Z _)) => True
      | _, _ => False
      end
    | _, _ => False
    end.
Proof. eexists. eexists. split; [reflexivity|]. split; [reflexivity|]. exact I. Qed.
Print Assumptions C99_merge_refuted.

(** ** What holds *)

Lemma in_part d : In d (parts d).
Proof. destruct d; left; reflexivity. Qed.

Lemma full_out names d : no_merge d -> tagged d -> full names d = write_out names (seen untagged d).
Proof.
  revert d. fix IH 1. intros d M T. destruct d as [a t v|a t l|a t l|name].
  - cbn. assert (t <> no_tag) by (apply (T a t v); left; reflexivity). destruct t as [| | | | | | | | | | |s]; try reflexivity. destruct s; [contradiction H; reflexivity|reflexivity].
  - cbn [full seen write_out]. f_equal. rewrite map_map.
    assert (M' : forall x, In x l -> no_merge x). { intros x I b t' l' k v I'. apply (M b t' l' k v). right. apply in_flat_map. exists x. auto. }
    assert (T' : forall x, In x l -> tagged x). { intros x I b t' v I'. apply (T b t' v). right. apply in_flat_map. exists x. auto. }
    clear M T. induction l as [|x l IHl]; [reflexivity|]. cbn [map]. f_equal; [apply IH; [apply M'|apply T']; left; reflexivity|].
    apply IHl; intros y I; [apply M'|apply T']; right; exact I.
  - cbn [full seen write_out]. f_equal. rewrite map_map. cbn [fst snd].
    assert (K : forall k v, In (k, v) l -> match k with WScal _ t _ | WSeq _ t _ | WMap _ t _ => t <> TMerge | WAlias _ => False end) by (intros k v I; apply (M a t l k v); [left; reflexivity|exact I]).
    assert (M' : forall e, In e l -> no_merge (fst e) /\ no_merge (snd e)).
    { intros e I. split; intros b t' l' k v I'; apply (M b t' l' k v); right; apply in_flat_map; exists e; (split; [exact I|apply in_app_iff; auto]). }
    assert (T' : forall e, In e l -> tagged (fst e) /\ tagged (snd e)).
    { intros e I. split; intros b t' v I'; apply (T b t' v); right; apply in_flat_map; exists e; (split; [exact I|apply in_app_iff; auto]). }
    clear M T.
    assert (G : map (fun e => (full names (fst e), full names (snd e))) l = map (fun e => (write_out names (seen untagged (fst e)), write_out names (seen untagged (snd e)))) l).
    { clear K. induction l as [|[k v] l IHl]; [reflexivity|]. cbn [map fst snd]. f_equal.
      - destruct (M' (k, v) (or_introl eq_refl)) as [M1 M2]. destruct (T' (k, v) (or_introl eq_refl)) as [T1 T2]. cbn [fst snd] in *. rewrite (IH k M1 T1), (IH v M2 T2). reflexivity.
      - apply IHl; intros e I; [apply M'|apply T']; right; exact I. }
    rewrite <- G. clear G M' T'. unfold merged.
    assert (G : forall A : list (node * node), flat_map (fun e => match is_merge (fst e), snd e with
        | true, Map _ m => filter (fun q => negb (existsb (fun r => String.eqb (value (fst r)) (value (fst q))) A)) m | _, _ => [e] end) (map (fun e => (full names (fst e), full names (snd e))) l)
      = map (fun e => (full names (fst e), full names (snd e))) l).
    { intros A. induction l as [|[k v] l IHl]; [reflexivity|]. cbn [map flat_map fst snd]. rewrite IHl by (intros k' v' I; apply (K k' v'); right; exact I).
      assert (E : is_merge (full names k) = false). { specialize (K k v (or_introl eq_refl)). destruct k as [b t' x|b t' x|b t' x|x]; cbn in *; try contradiction; destruct t'; try reflexivity; contradiction K; reflexivity. }
      rewrite E. reflexivity. }
    apply G.
  - reflexivity.
Qed.

(** Of documents without merge keys, in which no alias is a key, an example, or the title or content of a page (AliasSpec.v), and with readers that ask for the
    tag of the alias itself: what loads is what the document written out in full loads as, with the values that are kept as nodes written out too. *)
Theorem C99_type_partial (F : FloatIO) names d t : no_number -> no_merge d -> tagged d -> aliases_apart (seen untagged d) ->
  hat (seen untagged d) = Ok t -> hat (full names d) = Ok (out_type names t).
Proof. intros N M T A H. rewrite (full_out names d M T). apply hat_out; assumption. Qed.
Print Assumptions C99_type_partial.

Theorem C99_api_partial (F : FloatIO) names d a : no_number -> no_merge d -> tagged d -> aliases_apart (seen untagged d) ->
  api_unmarshal (seen untagged d) new_api = Ok a -> api_unmarshal (full names d) new_api = Ok (out_api names a).
Proof. intros N M T A H. rewrite (full_out names d M T). apply api_out; assumption. Qed.
Print Assumptions C99_api_partial.

Theorem C99_library_partial (F : FloatIO) names d l : no_number -> no_merge d -> tagged d -> aliases_apart (seen untagged d) ->
  lib_unmarshal (seen untagged d) new_library = Ok l -> lib_unmarshal (full names d) new_library = Ok (out_lib names l).
Proof. intros N M T A H. rewrite (full_out names d M T). apply lib_out_ok; assumption. Qed.
Print Assumptions C99_library_partial.

(** Documents that are like that: aliases in an annotation, an extra facet, an enumeration and a default, in a trait and in a security scheme. *)
#[local] Instance toy : FloatIO := { float_of := fun _ s => None; float_text := fun _ => (TFloat, "0.5") }.
Definition used_well : text := wm_
  [(w_ "type", w_ "object"); (w_ "(note)", wm_ [(w_ "text", WScal (Some "a") TStr "hello"); (w_ "again", WAlias "a")]);
   (w_ "example", wm_ [(w_ "value", WAlias "a"); (w_ "strict", WScal None TBool "false")]);
   (w_ "enum", WSeq None TSeq [WAlias "a"]); (w_ "extra", wm_ [(w_ "deep", WAlias "a")])].
Definition used_well_api : text := wm_
  [(w_ "title", w_ "T"); (w_ "types", wm_ [(w_ "A", used_well)]); (w_ "traits", wm_ [(w_ "t", WAlias "a")]); (w_ "/x", WAlias "a")].
Definition used_well_lib : text := wm_ [(w_ "types", wm_ [(w_ "A", used_well)]); (w_ "securitySchemes", wm_ [(w_ "t", WAlias "a")]); (w_ "traits", wm_ [(w_ "t", WAlias "a")])].
Example C99_nonvacuous :
  no_number /\ (no_merge used_well /\ tagged used_well /\ aliases_apart (seen untagged used_well) /\ stands_for (fun _ => s_ "hello") used_well) /\
  (no_merge used_well_api /\ tagged used_well_api /\ aliases_apart (seen untagged used_well_api)) /\
  (no_merge used_well_lib /\ tagged used_well_lib /\ aliases_apart (seen untagged used_well_lib)) /\
  (exists t, hat (seen untagged used_well) = Ok t) /\ (exists a, api_unmarshal (seen untagged used_well_api) new_api = Ok a) /\
  (exists l, lib_unmarshal (seen untagged used_well_lib) new_library = Ok l).
Proof.
  split; [intros s; reflexivity|]. split; [split; [intros a t l k v; by_parts|split; [intros a t v; by_parts|split; [cbn; repeat split; by_parts; intuition discriminate|split; [intros p a; by_parts|intros a H; by_parts;
    exists (WScal (Some "a") TStr "hello"); (split; [cbn; tauto|reflexivity])]]]]|].
  split; [split; [intros a t l k v; by_parts|split; [intros a t v; by_parts|cbn; repeat split; by_parts; intuition discriminate]]|].
  split; [split; [intros a t l k v; by_parts|split; [intros a t v; by_parts|cbn; repeat split; by_parts; intuition discriminate]]|].
  split; [eexists; reflexivity|]. split; eexists; reflexivity.
Qed.

(** Each of the exceptions is one: the document is loaded, but not as what it means.  An example that is an alias of an expanded example; a page whose title is an alias. *)
Definition wrong {A} (read : node -> res A) (out : A -> A) (names : string -> node) (d : text) : Prop :=
  no_merge d /\ tagged d /\ stands_for names d /\ exists a b, read (seen untagged d) = Ok a /\ read (full names d) = Ok b /\ b <> out a.

Definition expanded : text := WMap (Some "a") TMap [(w_ "value", w_ "x"); (w_ "strict", WScal None TBool "false")].
Definition expanded_node : node := m_ [(s_ "value", s_ "x"); (s_ "strict", Scal TBool "false")].
Definition alias_example : text := wm_ [(w_ "type", w_ "file"); (w_ "note", expanded); (w_ "example", WAlias "a")].
Definition alias_examples : text := wm_ [(w_ "type", w_ "file"); (w_ "note", expanded); (w_ "examples", wm_ [(w_ "one", WAlias "a")])].
Definition alias_title : text := wm_ [(w_ "note", WScal (Some "a") TStr "Welcome"); (w_ "documentation", WSeq None TSeq [wm_ [(w_ "title", WAlias "a")]])].
Definition alias_content : text := wm_ [(w_ "note", WScal (Some "a") TStr "Welcome"); (w_ "documentation", WSeq None TSeq [wm_ [(w_ "content", WAlias "a")]])].

Ltac show_wrong := unfold wrong; (split; [unfold no_merge; intros a t l k v; by_parts|split; [unfold tagged; intros a t v; by_parts|split;
  [unfold stands_for; split; [intros p a; by_parts|intros a H; by_parts; first [exists expanded; split; [cbn; tauto|reflexivity]|exists (WScal (Some "a") TStr "Welcome"); split; [cbn; tauto|reflexivity]]]|
  eexists; eexists; split; [reflexivity|]; split; [reflexivity|]; discriminate]]]).
Theorem C99_places_refuted (F : FloatIO) :
  wrong hat (out_type (fun _ => expanded_node)) (fun _ => expanded_node) alias_example /\
  wrong hat (out_type (fun _ => expanded_node)) (fun _ => expanded_node) alias_examples /\
  wrong (fun n => api_unmarshal n new_api) (out_api (fun _ => s_ "Welcome")) (fun _ => s_ "Welcome") alias_title /\
  wrong (fun n => api_unmarshal n new_api) (out_api (fun _ => s_ "Welcome")) (fun _ => s_ "Welcome") alias_content.
Proof. split; [show_wrong|]. split; [show_wrong|]. split; show_wrong. Qed.
Print Assumptions C99_places_refuted.
