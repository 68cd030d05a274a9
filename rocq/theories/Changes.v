(** Where a change of a document shows in what is loaded.  The vocabulary of C82 and C83. *)
From Coq Require Import SpecFloat.
From Verif Require Import Base Num OMap OMapSpec Keys Yaml Values Assign Formats Meta Out Xml Example DataType Marshal Doc Api Library Setters Live
  TypeFacts Fields FieldProofs FacetSpec ApiFields Objects Places.

(** ** Documents *)

(** The keys lead to a mapping; its entries with the key [K] were changed: other values, more or fewer of them, anywhere among the others. *)
Inductive edited (K : node) : list node -> node -> node -> Prop :=
| edited_not p n : edited K p n n
| edited_here t l l' : others (eq K) l l' -> edited K [] (Map t l) (Map t l')
| edited_in k p t l l' :
    Forall2 (fun e e' => fst e = fst e' /\ (snd e = snd e' \/ fst e = k /\ edited K p (snd e) (snd e'))) l l' -> edited K (k :: p) (Map t l) (Map t l').

(** ** What is loaded *)

(** Maps that are the same, in the same order, but for some entries *)
Definition map_but {K V} (P : K -> Prop) (m m' : amap K V) : Prop := oord m = oord m' /\ others P (ents m) (ents m').
(** Extra facets of documents: the key as a scalar *)
Definition scalar_of {F : FloatIO} (k : node) (g : gkey) : Prop := exists g', to_scalar k = Ok g' /\ same_key g g'.

(** The getter that shows the entries with a key, in a definition of a kind: a facet of this kind, else an annotation by its parenthesis, else an extra facet.
    In annotations and extra facets a key has an entry only. *)
Definition def_key (k : node) (kd : dkind) (f : Fields.field) : Prop :=
  match f with
  | FType => value k = "type" \/ value k = "schema"
  | FAnns => is_annotation_key k = true
  | FExtra => ~ In (value k) (known_keys kd) /\ (is_annotation_key k = true -> facets_of kd = [])
  | _ => facet_key f = Some (value k)
  end.
Definition def_but (k : node) (d d' : dtype) : Prop :=
  d_kind d = d_kind d' /\
  (forall f, ~ def_key k (d_kind d) f -> getf f d = getf f d') /\
  map_but (eq (KStr (value k))) (d_extra d) (d_extra d') /\
  match getf FAnns d, getf FAnns d' with Some (VAnns m), Some (VAnns m') => map_but (eq (value k)) m m' | None, None => True | _, _ => False end.
(** These may decide what kind of definition it is. *)
Definition kind_keys : list string := ["type"; "schema"; "properties"; "items"].

(** The getter that shows the entries with a key, in an API document *)
Definition starts (c : ascii) (s : string) : bool := match s with String d _ => Ascii.eqb d c | EmptyString => false end.
Definition api_key (k : node) : afield :=
  if negb (is_string k) then AExtra else if starts "(" (value k) then AAnnotations else if starts "/" (value k) then AResources
  else match look (value k) api_keys with Some f => f | None => AExtra end.
Definition api_but {F : FloatIO} (k : node) (a a' : api) : Prop :=
  (forall f, f <> api_key k -> aget f a = aget f a') /\
  map_but (eq (value k)) (a_annotations a) (a_annotations a') /\ map_but (eq (value k)) (a_resources a) (a_resources a') /\
  map_but (scalar_of k) (a_extra a) (a_extra a').
(** ... and in a library *)
Definition library_keys : list (string * lfield) :=
  [("annotationTypes", LAnnotationTypes); ("resourceTypes", LResourceTypes); ("types", LTypes); ("schemas", LTypes); ("traits", LTraits); ("uses", LUses);
   ("usage", LUsage); ("securitySchemes", LSecuritySchemes)].
Definition library_key (k : node) : lfield :=
  match look (value k) library_keys with Some f => f | None => if is_annotation_key k then LAnnotations else LExtra end.
Definition lib_but {F : FloatIO} (k : node) (l l' : library) : Prop :=
  (forall f, f <> library_key k -> lget f l = lget f l') /\
  map_but (eq (value k)) (l_annotations l) (l_annotations l') /\ map_but (scalar_of k) (l_extra l) (l_extra l').

(** The same but for what the entries [k] of its mapping say *)
Definition same_here {F : FloatIO} (k : node) (t t' : thing) : Prop :=
  match t, t' with
  | ThApi a, ThApi a' => api_but k a a'
  | ThLib l, ThLib l' => lib_but k l l'
  | ThDef d, ThDef d' => def_but k d d'
  | ThDefs m, ThDefs m' => map_but (eq (value k)) m m'
  | ThFacets m, ThFacets m' => map_but (eq (value k)) m m'
  | ThExs m, ThExs m' => map_but (eq (value k)) m m'
  | ThUntyped m, ThUntyped m' => map_but (eq (value k)) m m'
  | ThStrings m, ThStrings m' => map_but (eq (value k)) m m'
  | ThEx _, ThEx _ => True
  | _, _ => False
  end.

(** What the entry with a key is loaded as *)
Definition document_fields : list (string * Objects.field) :=
  [("types", FdTypes); ("schemas", FdTypes); ("traits", FdTraits); ("resourceTypes", FdResourceTypes); ("annotationTypes", FdAnnotationTypes);
   ("securitySchemes", FdSecuritySchemes); ("uses", FdUses); ("baseUriParameters", FdBaseUriParameters)].
Definition definition_fields : list (string * Objects.field) :=
  [("items", FdItems); ("properties", FdProperties); ("facets", FdFacetDefinitions); ("examples", FdExamples)].
Definition leads (k : string) (t : thing) : option name :=
  match t with
  | ThApi _ | ThLib _ => option_map NField (look k document_fields)
  | ThDef _ => option_map NField (look k definition_fields)
  | ThDefs _ | ThFacets _ | ThExs _ => Some (NKey k)
  | _ => None
  end.

(** The same but for what the changed entries say.  On the way there nothing else differs, and each map has the same keys in the same order. *)
Fixpoint same_but_at {F : FloatIO} (p : list node) (K : node) (t t' : thing) : Prop :=
  match p with
  | [] => same_here K t t' \/ match t, t' with ThDef d, ThDef d' => In (value K) kind_keys /\ d_kind d <> d_kind d' | _, _ => False end
  | k :: p =>
    same_here k t t' /\ map fst (parts t) = map fst (parts t') /\
    match leads (value k) t with
    | Some n =>
      match get_part n t, get_part n t' with
      | Some q, Some q' => same_but_at p K q q'
      | None, None => True
      | _, _ => False
      end
    | None => True
    end
  end.
