(** What reading a document into an object that holds something already should give (C73), and what a reading that failed leaves (C74). *)
From Coq Require Import SpecFloat.
From Verif Require Import Base Num OMap OMapSpec Keys Yaml Values Assign Formats Meta Out Xml Example Doc DataType Marshal Api Library TypeFacts Fields ApiFields FacetSpec.

(** ** One over the other *)

(** Two maps: the entries of the old one whose keys are not in the new one, then those of the new one. *)
Definition merged {K V} (same : K -> K -> bool) (old new : amap K V) : amap K V :=
  mkMap (filter (fun e => negb (existsb (fun e' => same (fst e') (fst e)) (ents new))) (ents old) ++ ents new) (oord old).

Definition merged_s {V} : amap string V -> amap string V -> amap string V := merged String.eqb.
Definition merged_g {V} : amap gkey V -> amap gkey V -> amap gkey V := merged gkey_eqb.

(** A value that may be absent. *)
Definition newer {A} (old new : option A) : option A := match new with Some _ => new | None => old end.

(** Lists that grow. *)
Definition longer {A} (old new : option (list A)) : option (list A) :=
  match new with Some l => Some (match old with Some l' => l' ++ l | None => l end) | None => old end.

(** Does a mapping have an entry with this text as its key? *)
Definition says (s : string) (l : list (node * node)) : bool := existsb (fun e => is_string (fst e) && String.eqb (value (fst e)) s) l.
Definition spells (s : string) (l : list (node * node)) : bool := existsb (fun e => String.eqb (value (fst e)) s) l.

(** Is every media type of the document given as a string?  A list replaces what was there before, a string is added. *)
Definition adds_media (l : list (node * node)) : bool :=
  forallb (fun e => negb (is_string (fst e) && String.eqb (value (fst e)) "mediaType") || is_string (snd e)) l.

(** [a] over which the document [l] was read, whose own contents are [b]. *)
Definition api_over (l : list (node * node)) (a b c : api) : Prop :=
  a_title c = (if says "title" l then a_title b else a_title a) /\
  a_version c = newer (a_version a) (a_version b) /\
  a_baseURI c = newer (a_baseURI a) (a_baseURI b) /\
  a_description c = newer (a_description a) (a_description b) /\
  a_protocols c = newer (a_protocols a) (a_protocols b) /\
  a_securedBy c = newer (a_securedBy a) (a_securedBy b) /\
  a_mediaType c = (if adds_media l then longer (a_mediaType a) (a_mediaType b) else a_mediaType b) /\
  a_documentation c = longer (a_documentation a) (a_documentation b) /\
  a_uses c = merged_s (a_uses a) (a_uses b) /\
  a_securitySchemes c = merged_s (a_securitySchemes a) (a_securitySchemes b) /\
  a_baseURIParameters c = merged_s (a_baseURIParameters a) (a_baseURIParameters b) /\
  a_traits c = merged_s (a_traits a) (a_traits b) /\
  a_annotationTypes c = merged_s (a_annotationTypes a) (a_annotationTypes b) /\
  a_resourceTypes c = merged_s (a_resourceTypes a) (a_resourceTypes b) /\
  a_annotations c = merged_s (a_annotations a) (a_annotations b) /\
  a_resources c = merged_s (a_resources a) (a_resources b) /\
  a_types c = merged_s (a_types a) (a_types b) /\
  a_extra c = merged_g (a_extra a) (a_extra b).

Definition lib_over (a b c : library) : Prop :=
  l_usage c = newer (l_usage a) (l_usage b) /\
  l_uses c = merged_s (l_uses a) (l_uses b) /\
  l_securitySchemes c = merged_s (l_securitySchemes a) (l_securitySchemes b) /\
  l_traits c = merged_s (l_traits a) (l_traits b) /\
  l_annotationTypes c = merged_s (l_annotationTypes a) (l_annotationTypes b) /\
  l_annotations c = merged_s (l_annotations a) (l_annotations b) /\
  l_resourceTypes c = merged_s (l_resourceTypes a) (l_resourceTypes b) /\
  l_types c = merged_s (l_types a) (l_types b) /\
  l_extra c = merged_g (l_extra a) (l_extra b).

Definition doc_over (l : list (node * node)) (a b c : doc) : Prop :=
  doc_title c = (if spells "title" l then doc_title b else doc_title a) /\
  doc_content c = (if spells "content" l then doc_content b else doc_content a) /\
  doc_extra c = merged_g (doc_extra a) (doc_extra b).

Definition ex_over (l : list (node * node)) (a b c : ex) : Prop :=
  ex_display c = newer (ex_display a) (ex_display b) /\
  ex_descr c = newer (ex_descr a) (ex_descr b) /\
  ex_anns c = merged_s (ex_anns a) (ex_anns b) /\
  ex_value c = newer (ex_value a) (ex_value b) /\
  ex_strict c = (if says "strict" l then ex_strict b else ex_strict a) /\
  ex_extra c = merged_g (ex_extra a) (ex_extra b).

(** The other keys of XML settings are a Go map, which has no order: what it holds for a key. *)
Definition held (k : gkey) (m : list (gkey * node)) : option node := option_map snd (find (fun e => gkey_eqb (fst e) k) m).

Definition xml_over (a b c : xml) : Prop :=
  xml_attr c = newer (xml_attr a) (xml_attr b) /\
  xml_wrap c = newer (xml_wrap a) (xml_wrap b) /\
  xml_name c = newer (xml_name a) (xml_name b) /\
  xml_ns c = newer (xml_ns a) (xml_ns b) /\
  xml_pref c = newer (xml_pref a) (xml_pref b) /\
  forall k, held k (xml_extra c) = newer (held k (xml_extra a)) (held k (xml_extra b)).

(** One getter of a type.  [FDefault] has no key. *)
Definition over_field (f : field) (l : list (node * node)) (old new : fval) : fval :=
  match old, new with
  | VStr _, _ => if spells "type" l || spells "schema" l then new else old
  | VOptStr o, VOptStr n => VOptStr (newer o n)
  | VBool _, _ | VInt _, _ => match facet_key f with Some s => if spells s l then new else old | None => old end
  | VOptInt o, VOptInt n => VOptInt (newer o n)
  | VOptFloat o, VOptFloat n => VOptFloat (newer o n)
  | VStrs o, VStrs n => VStrs (newer o n)
  | VOptVal o, VOptVal n => VOptVal (newer o n)
  | VVals o, VVals n => VVals (longer o n)
  | VOptType o, VOptType n => VOptType (newer o n)
  | VTypes o, VTypes n => VTypes (merged_s o n)
  | VFacets o, VFacets n => VFacets (merged_s o n)
  | VAnns o, VAnns n => VAnns (merged_s o n)
  | VXml o, VXml n => VXml (newer o n)
  | VEx o, VEx n => VEx (newer o n)
  | VExs o, VExs n => VExs (merged_s o n)
  | VExtra o, VExtra n => VExtra (merged_g o n)
  | _, _ => old
  end.

Definition type_over (l : list (node * node)) (a b c : dtype) : Prop :=
  d_kind c = d_kind a /\
  forall f, getf f c = match getf f a, getf f b with Some old, Some new => Some (over_field f l old new) | _, _ => None end.

(** ** What a reading that failed leaves *)

Section Leaves.
  Context {A : Type}.
  (** A reader: the object afterwards, if the reading succeeds. *)
  Variable rd : node -> A -> res A.
  (** The keys whose value is a mapping or list that is read item by item into the object. *)
  Variable sections : list string.

  (** [v1] is a beginning of [v], [v2] the beginning with one item more. *)
  Inductive one_more : node -> node -> node -> Prop :=
  | more_map t x p y : one_more (Map t x) (Map t (x ++ [p])) (Map t (x ++ p :: y))
  | more_seq t x p y : one_more (Seq t x) (Seq t (x ++ [p])) (Seq t (x ++ p :: y)).

  Definition emptied (v : node) : node := match v with Map t _ => Map t [] | Seq t _ => Seq t [] | _ => v end.

  (** [leaves n a r a']: reading [n] into [a] fails with [r] and leaves [a']. *)
  Inductive leaves : node -> A -> res A -> A -> Prop :=
  (** the document is no mapping: nothing has happened *)
  | leaves_all n a r : (forall t l, n <> Map t l) -> is_ok r = false -> rd n a = r -> leaves n a r a
  (** the first bad entry leaves nothing behind *)
  | leaves_entry t l1 e l2 a a' r : rd (Map t l1) a = Ok a' -> is_ok r = false -> rd (Map t [e]) a' = r ->
      (In (value (fst e)) sections -> is_ok (rd (Map t [(fst e, emptied (snd e))]) a') = false) ->
      leaves (Map t (l1 ++ e :: l2)) a r a'
  (** the first bad entry is a section: its items before the first bad one have been read *)
  | leaves_item t l1 k v v1 v2 l2 a a1 a' r : rd (Map t l1) a = Ok a1 -> In (value k) sections -> one_more v1 v2 v ->
      rd (Map t [(k, v1)]) a1 = Ok a' -> is_ok r = false -> rd (Map t [(k, v2)]) a1 = r ->
      leaves (Map t (l1 ++ (k, v) :: l2)) a r a'.
End Leaves.

(** Examples have no sections.  But the value of an array example is emptied before it is known whether the new one is a list: so it is lost when the
    new one is none, whether it stands alone or behind the key value. *)
Definition cut (kd : dkind) (at_value : bool) (e : ex) : ex :=
  match kd with
  | TyArray => if at_value then mkEx (ex_display e) (ex_descr e) (ex_anns e) (Some (GList [])) (ex_strict e) (ex_extra e) else e
  | _ => e
  end.

Inductive ex_leaves (rd : node -> ex -> res ex) (kd : dkind) : node -> ex -> res ex -> ex -> Prop :=
| ex_leaves_all n a r : (forall t l, n <> Map t l) -> is_ok r = false -> rd n a = r -> ex_leaves rd kd n a r (cut kd true a)
| ex_leaves_entry t l1 e l2 a a' r : rd (Map t l1) a = Ok a' -> is_ok r = false -> rd (Map t [e]) a' = r ->
    ex_leaves rd kd (Map t (l1 ++ e :: l2)) a r (cut kd (is_string (fst e) && String.eqb (value (fst e)) "value") a').

Definition api_sections : list string :=
  ["documentation"; "uses"; "securitySchemes"; "baseUriParameters"; "traits"; "annotationTypes"; "resourceTypes"; "types"; "schemas"].
Definition lib_sections : list string := ["annotationTypes"; "resourceTypes"; "types"; "schemas"; "traits"; "uses"; "securitySchemes"].
Definition type_sections : list string := ["examples"; "enum"; "facets"; "properties"].
