(** Properties C82 and C83: a change of a document changes what is loaded only there. *)
From Coq Require Import SpecFloat.
From Verif Require Import Base Num OMap OMapSpec Keys Yaml Values Assign Formats Meta Out Xml Example DataType Marshal Doc Api Library Setters Live Objects
  TypeFacts Fields FieldProofs FacetSpec ApiFields PropertiesObjects Places PlaceProofs Changes ChangeProofs.
#[local] Existing Instance toy.

Local Notation s_ := str_node.
Local Notation m_ := (Map TMap).

(** ** C82: type definitions and API documents *)

(** Two definitions that are the same but for the entries with the key [K] in the mapping to which the keys [p] lead *)
Theorem C82_definitions {F : FloatIO} K p n n' d d' : edited K p n n' -> hat n = Ok d -> hat n' = Ok d' -> same_but_at p K (ThDef d) (ThDef d').
Proof. exact (proj1 (def_apart K p) n n' d d'). Qed.
Print Assumptions C82_definitions.

Theorem C82_api {F : FloatIO} K p n n' a a' : edited K p n n' -> api_unmarshal n new_api = Ok a -> api_unmarshal n' new_api = Ok a' -> same_but_at p K (ThApi a) (ThApi a').
Proof. exact (api_apart K p n n' new_api a a'). Qed.
Print Assumptions C82_api.

(** In particular, a change in one of the types of an API document: all other getters show the same, there are the same types in the same order, and all but the one
    are the same. *)
Lemma keyed_names {A} (f : A -> thing) (m m' : amap string A) : map fst (keyed f m) = map fst (keyed f m') -> map fst (ents m) = map fst (ents m').
Proof.
  unfold keyed. rewrite !map_map. cbn [fst]. generalize (ents m'). induction (ents m) as [|e l IH]; intros [|e' l'] E; try discriminate; [reflexivity|].
  injection E as E1 E2. cbn [map]. rewrite E1. f_equal. exact (IH _ E2).
Qed.
Lemma others_get {V} k (l l' : list (string * V)) y : y <> k -> others (eq k) l l' -> sget String.eqb y l = sget String.eqb y l'.
Proof.
  intros Ny O. unfold sget. induction O as [|e l l' O IH|e l l' Pe O IH|e l l' Pe O IH]; cbn [find].
  - reflexivity.
  - destruct (String.eqb (fst e) y); [reflexivity|exact IH].
  - rewrite <- Pe. replace (String.eqb k y) with false by (symmetry; apply String.eqb_neq; congruence). exact IH.
  - rewrite <- Pe. replace (String.eqb k y) with false by (symmetry; apply String.eqb_neq; congruence). exact IH.
Qed.
Lemma one_type {F : FloatIO} K x p n n' a a' : edited K (s_ "types" :: x :: p) n n' -> api_unmarshal n new_api = Ok a -> api_unmarshal n' new_api = Ok a' ->
  (forall f, f <> ATypes -> aget f a = aget f a') /\ map fst (ents (a_types a)) = map fst (ents (a_types a')) /\
  (forall y, y <> value x -> sget String.eqb y (ents (a_types a)) = sget String.eqb y (ents (a_types a'))) /\
  match sget String.eqb (value x) (ents (a_types a)), sget String.eqb (value x) (ents (a_types a')) with
  | Some d, Some d' => same_but_at p K (ThDef d) (ThDef d') | None, None => True | _, _ => False
  end.
Proof.
  intros Ed H H'. pose proof (C82_api K _ n n' a a' Ed H H') as C. destruct C as [[C0 _] [_ C]]. split; [exact C0|].
  change (leads (value (s_ "types")) (ThApi a)) with (Some (NField FdTypes)) in C. change (same_but_at (x :: p) K (ThDefs (a_types a)) (ThDefs (a_types a'))) in C.
  destruct C as [[_ Hb] [Hk Hx]]. split; [exact (keyed_names ThDef _ _ Hk)|]. split; [intros y Ny; exact (others_get _ _ _ y Ny Hb)|].
  cbn [leads] in Hx. unfold get_part, parts in Hx. rewrite !get_keyed in Hx.
  destruct (sget String.eqb (value x) (ents (a_types a))), (sget String.eqb (value x) (ents (a_types a'))); exact Hx.
Qed.
Theorem C82_one_type {F : FloatIO} K x p n n' a a' : edited K (s_ "types" :: x :: p) n n' -> api_unmarshal n new_api = Ok a -> api_unmarshal n' new_api = Ok a' ->
  (forall f, f <> ATypes -> aget f a = aget f a') /\ map fst (ents (a_types a)) = map fst (ents (a_types a')) /\
  (forall y, y <> value x -> sget String.eqb y (ents (a_types a)) = sget String.eqb y (ents (a_types a'))) /\
  match sget String.eqb (value x) (ents (a_types a)), sget String.eqb (value x) (ents (a_types a')) with
  | Some d, Some d' => same_but_at p K (ThDef d) (ThDef d') | None, None => True | _, _ => False
  end.
Proof. exact (one_type K x p n n' a a'). Qed.
Print Assumptions C82_one_type.

Local Ltac way := apply edited_in; repeat (apply Forall2_cons || apply Forall2_nil); (split; [reflexivity|]); try (left; reflexivity); right; (split; [reflexivity|]).

(** The documents of the examples: the length of a property of a type, with and without it *)
Definition user (name : list (node * node)) : node := m_ [(s_ "type", s_ "object"); (s_ "properties", m_ [(s_ "id", s_ "integer"); (s_ "name", m_ name)]); (s_ "description", s_ "d")].
Definition site (name : list (node * node)) : node := m_ [(s_ "title", s_ "t"); (s_ "types", m_ [(s_ "User", user name); (s_ "Id", s_ "integer")]); (s_ "(a)", m_ [(s_ "b", s_ "c")])].
Definition short_name : list (node * node) := [(s_ "type", s_ "string"); (s_ "minLength", Scal TInt "3"); (s_ "pattern", s_ "x")].
Definition any_name : list (node * node) := [(s_ "type", s_ "string"); (s_ "pattern", s_ "x")].
Example C82_user_edited : edited (s_ "minLength") [s_ "properties"; s_ "name"] (user short_name) (user any_name).
Proof.
  way. way. apply edited_here. repeat (apply others_same || apply others_nil || (apply others_old; [reflexivity|])).
Qed.
Example C82_user_loads : exists d d', hat (user short_name) = Ok d /\ hat (user any_name) = Ok d' /\ d <> d'.
Proof. eexists _, _. split; [vm_compute; reflexivity|]. split; [vm_compute; reflexivity|]. discriminate. Qed.
Example C82_site_edited : edited (s_ "minLength") [s_ "types"; s_ "User"; s_ "properties"; s_ "name"] (site short_name) (site any_name).
Proof.
  way. way. exact C82_user_edited.
Qed.
Example C82_site_loads : exists a a', api_unmarshal (site short_name) new_api = Ok a /\ api_unmarshal (site any_name) new_api = Ok a' /\ a <> a'.
Proof. eexists _, _. split; [vm_compute; reflexivity|]. split; [vm_compute; reflexivity|]. discriminate. Qed.
(** The entry decides the kind. *)
Definition thing_of (k : string) : node := m_ [(s_ "type", s_ k); (s_ "description", s_ "d")].
Example C82_kind : edited (s_ "type") [] (thing_of "string") (thing_of "integer") /\
  exists d d', hat (thing_of "string") = Ok d /\ hat (thing_of "integer") = Ok d' /\ d_kind d <> d_kind d'.
Proof.
  split; [apply edited_here; unfold thing_of; apply others_old; [reflexivity|]; apply others_new; [reflexivity|]; apply others_same; constructor|].
  eexists _, _. split; [vm_compute; reflexivity|]. split; [vm_compute; reflexivity|]. discriminate.
Qed.

(** ** C83: libraries *)

(** The entry [annotationTypes] shows in the annotations, under other names. *)
Definition lib_doc (l : list (node * node)) : node := m_ ((s_ "usage", s_ "u") :: l).
Theorem C83_library_refuted : exists K p n n' l l',
  edited K p n n' /\ lib_unmarshal n new_library = Ok l /\ lib_unmarshal n' new_library = Ok l' /\ ~ same_but_at p K (ThLib l) (ThLib l').
Proof.
  exists (s_ "annotationTypes"), [], (lib_doc [(s_ "annotationTypes", m_ [(s_ "a", m_ [])])]), (lib_doc []). eexists _, _.
  split; [apply edited_here; apply others_same, others_old; [reflexivity|apply others_nil]|]. split; [vm_compute; reflexivity|]. split; [vm_compute; reflexivity|].
  intros [[_ [[_ H] _]]|H]; [|exact H]. cbn in H. inversion H. discriminate.
Qed.
Print Assumptions C83_library_refuted.

(** Every other entry shows where it belongs, and nowhere else. *)
Theorem C83_library_partial {F : FloatIO} K p n n' l l' : value (hd K p) <> "annotationTypes" ->
  edited K p n n' -> lib_unmarshal n new_library = Ok l -> lib_unmarshal n' new_library = Ok l' -> same_but_at p K (ThLib l) (ThLib l').
Proof. exact (lib_apart K p n n' new_library l l'). Qed.
Print Assumptions C83_library_partial.
Definition shelf (name : list (node * node)) : node := lib_doc [(s_ "types", m_ [(s_ "User", user name)]); (s_ "annotationTypes", m_ [(s_ "a", m_ [])])].
Example C83_shelf_edited : edited (s_ "minLength") [s_ "types"; s_ "User"; s_ "properties"; s_ "name"] (shelf short_name) (shelf any_name).
Proof.
  way. way. exact C82_user_edited.
Qed.
Example C83_shelf_loads : exists a a', lib_unmarshal (shelf short_name) new_library = Ok a /\ lib_unmarshal (shelf any_name) new_library = Ok a' /\ a <> a'.
Proof. eexists _, _. split; [vm_compute; reflexivity|]. split; [vm_compute; reflexivity|]. discriminate. Qed.
