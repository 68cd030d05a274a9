(** How often saving looks at something: at an entry of a map or an item of a list that is written, or at an entry of the map that is filled for it.

    What a marshal function does is written down as the list of its Put calls, with the values that are put; [result] carries them out (SaveCostProofs.v:
    this is what to_yaml, api_marshal and lib_marshal give) and [looks] counts.  Put of a key that is not there looks at no entry of the map; of a key that is
    there, at all of them (C94).  Counted too: one look for each call of Put, for each entry that ToYAML goes through, and for each item of a list.  The work on
    a single key or value, and inside Go's maps, is not counted. *)
From Coq Require Import SpecFloat.
From Verif Require Import Base Num OMap OMapSpec Keys Yaml Values Assign Formats Meta Out Xml Example DataType Marshal Doc Api Library TypeFacts Fields FacetSpec Segs WriteSpec Cost.

Inductive work : Type :=
| Value (r : res node) (items : nat)                      (** a value that is not a map: its node, and how many items it has *)
| Entries (ordered : bool) (l : list (gkey * work))       (** ToYAML of a map *)
| Puts (short : bool) (l : list (gkey * work)).           (** the calls of Put, in order, and ToYAML of the map; [short]: of a type, which has a short form *)

(** ** What comes out *)

Fixpoint result {F : FloatIO} (w : work) : res node :=
  match w with
  | Value r _ => r
  | Entries o l => map_to_yaml key_node (fun w => result w) (mkMap l o)
  | Puts short l =>
    let o := fold_left (fun o e => oput (fst e) (result (snd e)) o) l [] in
    if short then short_or_full o else out_to_yaml o
  end.

(** ** What it takes *)

Definition total (l : list nat) : nat := fold_right Nat.add 0%nat l.

(** One look for each Put, and those of Delete and IndexOf *)
Fixpoint put_looks {V} (o : list (gkey * V)) (l : list (gkey * V)) : nat :=
  match l with
  | [] => 0%nat
  | e :: t => (1 + put_cost gkey_eqb (fst e) (mkMap o false) + put_looks (sput gkey_eqb (fst e) (snd e) o) t)%nat
  end.

(** The values are converted in ToYAML, so only those that are in the map in the end. *)
Fixpoint looks (w : work) : nat :=
  match w with
  | Value _ n => n
  | Entries _ l => total (map (fun e => 1 + looks (snd e))%nat l)
  | Puts _ l =>
    let p := map (fun e => (fst e, looks (snd e))) l in
    (put_looks [] p + total (map (fun e => 1 + snd e)%nat (fold_left (fun o e => sput gkey_eqb (fst e) (snd e) o) p [])))%nat
  end.

(** How much there is: one for every value, entry and item. *)
Fixpoint size (w : work) : nat :=
  match w with
  | Value _ n => (1 + n)%nat
  | Entries _ l | Puts _ l => (1 + total (map (fun e => 1 + size (snd e)) l))%nat
  end.

(** ** The calls *)

Section Calls.
  Context {F : FloatIO}.

  (** ToYamlNode of a value: a list item by item *)
  Fixpoint items (v : gval) : nat := match v with GList l => total (map (fun x => 1 + items x)%nat l) | _ => 0%nat end.
  Definition val_work (v : gval) : work := Value (to_node v) (items v).
  Definition one (n : node) : work := Value (Ok n) 0.
  Definition strings_work (l : list string) : work := Value (Ok (Seq TSeq (map str_node l))) (List.length l).

  Definition put (k : string) (w : work) : list (gkey * work) := [(KStr k, w)].
  (** out.PutIfNotNil(k, v) *)
  Definition put_opt (k : string) (o : option work) : list (gkey * work) := match o with Some w => [(KStr k, w)] | None => [] end.
  (** if c { out.Put(k, v) } *)
  Definition put_if (c : bool) (k : string) (w : work) : list (gkey * work) := if c then [(KStr k, w)] else [].
  (** m.ForEach(func(k, v) { out.Put(k, v) }) *)
  Definition put_each {K V} (kf : K -> gkey) (vf : V -> work) (l : list (K * V)) : list (gkey * work) := map (fun e => (kf (fst e), vf (snd e))) l.

  (** ToYAML of a map with strings as keys *)
  Definition map_work {V} (vf : V -> work) (m : amap string V) : work := Entries (oord m) (map (fun e => (KStr (fst e), vf (snd e))) (ents m)).
  Definition untyped_work : untyped -> work := map_work val_work.

  Definition str_work (s : string) : work := one (str_node s).
  Definition int_work (z : Z) : work := one (int_node z).
  Definition float_work (x : spec_float) : work := one (float_node x).
  Definition bool_work (b : bool) : work := one (bool_node b).

  (** x-gen-ex-string.go:124-142 MarshalRAML and its siblings *)
  Definition ex_puts (e : ex) : list (gkey * work) :=
    if ex_expand e then
      put_opt KeyDisplayName (option_map str_work (ex_display e)) ++
      put_opt KeyDescription (option_map str_work (ex_descr e)) ++
      put_opt KeyValue (option_map val_work (ex_value e)) ++
      put_if (negb (Bool.eqb (ex_strict e) ExampleDefaultStrict)) KeyStrict (bool_work (ex_strict e)) ++
      put_each KStr untyped_work (ents (ex_anns e)) ++
      put_each (fun k => k) val_work (ents (ex_extra e))
    else put EmptyString (match ex_value e with Some v => val_work v | None => one null_node end).
  Definition ex_work (e : ex) : work := Puts false (ex_puts e).

  Section Types.
    Variable ty : dtype -> work.

    (** DataType.go:94-98, x-gen-type-include.go:29-38 *)
    Definition base_puts (n : node) (b : base) : list (gkey * work) := put KeyType (one n) ++ put_each (fun k => k) val_work (ents (b_extra b)).

    (** type-datatype-ext.go:52-73 *)
    Definition ext_puts (b : base) (x : ext) (f : amap string (amap string dtype)) : list (gkey * work) :=
      put_opt KeyDisplayName (option_map str_work (x_display x)) ++
      put_opt KeyDescription (option_map str_work (x_descr x)) ++
      base_puts (str_node (b_schema b)) b ++
      put_if (negb (x_required x)) KeyRequired (bool_work (x_required x)) ++
      put_each KStr untyped_work (ents (x_anns x)) ++
      put_if (nonempty f) KeyFacets (map_work (map_work ty) f) ++
      put_opt KeyXML (option_map (fun x => Value (xml_node x) 0) (x_xml x)).

    (** x-gen-type-array.go:240-252 and its siblings *)
    Definition spec_puts (s : spec dtype) : list (gkey * work) :=
      match s with
      | SNone => []
      | SArray u mn mx it =>
        put_if (negb (Bool.eqb u ArrayDefaultUniqueItems)) KeyUniqueItems (bool_work u) ++
        put_if (negb (mn =? ArrayDefaultMinItems)%Z) KeyMinItems (int_work mn) ++
        put_if (negb (mx =? ArrayDefaultMaxItems)%Z) KeyMaxItems (int_work mx) ++
        put_opt KeyItems (option_map ty it)
      | SDatetime f => put_opt KeyFormat (option_map str_work f)
      | SFile ft mn mx =>
        put_opt KeyFileTypes (option_map strings_work ft) ++
        put_if (negb (mn =? FileDefaultMinLength)%Z) KeyMinLength (int_work mn) ++
        put_if (negb (mx =? FileDefaultMaxLength)%Z) KeyMaxLength (int_work mx)
      | SInteger f mn mx mu =>
        put_opt KeyFormat (option_map str_work f) ++ put_opt KeyMinimum (option_map int_work mn) ++
        put_opt KeyMaximum (option_map int_work mx) ++ put_opt KeyMultipleOf (option_map float_work mu)
      | SNumber f mn mx mu =>
        put_opt KeyFormat (option_map str_work f) ++ put_opt KeyMinimum (option_map float_work mn) ++
        put_opt KeyMaximum (option_map float_work mx) ++ put_opt KeyMultipleOf (option_map float_work mu)
      | SObject ps mn mx ad di dv =>
        put_if (negb ad) KeyAddtlProps (bool_work ad) ++
        put_opt KeyMinProperties (option_map int_work mn) ++ put_opt KeyMaxProperties (option_map int_work mx) ++
        put_opt KeyDiscriminator (option_map str_work di) ++ put_opt KeyDiscriminatorVal (option_map val_work dv) ++
        put_if (nonempty ps) KeyProperties (map_work ty ps)
      | SString p mn mx =>
        put_opt KeyPattern (option_map str_work p) ++ put_if (0 <? mn)%Z KeyMinLength (int_work mn) ++ put_opt KeyMaxLength (option_map int_work mx)
      end.

    (** x-gen-type-array.go:232-262 marshal and its siblings *)
    Definition type_puts (d : dtype) : list (gkey * work) :=
      match d with
      | TBase b => base_puts (match b_kind b with TyInclude => Scal TInclude (b_schema b) | _ => str_node (b_schema b) end) b
      | TExt b x f c s =>
        put_opt KeyDefault (option_map val_work (c_def c)) ++
        ext_puts b x f ++
        spec_puts s ++
        put_opt KeyEnum (option_map (fun l => val_work (GList l)) (c_enum c)) ++
        put_opt KeyExample (option_map ex_work (c_example c)) ++
        put_if (nonempty (c_examples c)) KeyExamples (map_work ex_work (c_examples c))
      end.
  End Types.

  (** DataType.go:50-61 ToYAML *)
  Fixpoint type_work (d : dtype) : work := Puts true (type_puts (fun d' => type_work d') d).

  (** APISpec.go:305-347 *)
  Definition api_puts (a : api) : list (gkey * work) :=
    put KeyTitle (str_work (a_title a)) ++
    put_opt KeyVersion (option_map str_work (a_version a)) ++
    put_opt KeyBaseURI (option_map str_work (a_baseURI a)) ++
    put_opt KeyDescription (option_map str_work (a_description a)) ++
    put_opt KeyProtocols (option_map strings_work (a_protocols a)) ++
    put_opt KeyMediaType (option_map strings_work (a_mediaType a)) ++
    put_opt KeyDocumentation (option_map (fun l => Value (docs_node l) (List.length l)) (a_documentation a)) ++
    put_opt KeySecuredBy (option_map strings_work (a_securedBy a)) ++
    put_if (nonempty (a_uses a)) KeyUses (map_work str_work (a_uses a)) ++
    put_if (nonempty (a_securitySchemes a)) KeySecuritySchemes (untyped_work (a_securitySchemes a)) ++
    put_if (nonempty (a_baseURIParameters a)) KeyBaseURIParams (untyped_work (a_baseURIParameters a)) ++
    put_if (nonempty (a_traits a)) KeyTraits (untyped_work (a_traits a)) ++
    put_if (nonempty (a_annotationTypes a)) KeyAnnotationTypes (untyped_work (a_annotationTypes a)) ++
    put_if (nonempty (a_resourceTypes a)) KeyResourceTypes (untyped_work (a_resourceTypes a)) ++
    put_each KStr untyped_work (ents (a_annotations a)) ++
    put_each (fun k => k) val_work (ents (a_extra a)) ++
    put_each KStr val_work (ents (a_resources a)) ++
    put_if (nonempty (a_types a)) KeyTypes (map_work type_work (a_types a)).
  Definition api_work (a : api) : work := Puts false (api_puts a).

  (** Library.go:174-210 *)
  Definition lib_puts (l : library) : list (gkey * work) :=
    put_opt KeyUsage (option_map str_work (l_usage l)) ++
    put_if (nonempty (l_uses l)) KeyUses (map_work str_work (l_uses l)) ++
    put_if (nonempty (l_securitySchemes l)) KeySecuritySchemes (untyped_work (l_securitySchemes l)) ++
    put_if (nonempty (l_traits l)) KeyTraits (untyped_work (l_traits l)) ++
    put_if (nonempty (l_annotationTypes l)) KeyAnnotationTypes (untyped_work (l_annotationTypes l)) ++
    put_each KStr untyped_work (ents (l_annotations l)) ++
    put_if (nonempty (l_resourceTypes l)) KeyResourceTypes (untyped_work (l_resourceTypes l)) ++
    put_each (fun k => k) val_work (ents (l_extra l)) ++
    put_if (nonempty (l_types l)) KeyTypes (map_work type_work (l_types l)).
  Definition lib_work (l : library) : work := Puts false (lib_puts l).
End Calls.

(** ** When it is fast *)

(** No object has, at any depth, two things to write under one key. *)
Inductive clear : work -> Prop :=
| clear_value r n : clear (Value r n)
| clear_entries o l : (forall k w, In (k, w) l -> clear w) -> clear (Entries o l)
| clear_puts o l : apart (map fst l) = true -> (forall k w, In (k, w) l -> clear w) -> clear (Puts o l).

(** No annotation has the name of an extra facet. *)
Definition no_clash (t : dtype) : Prop := forall s, In s (ann_keys_of t) -> ~ In (KStr s) (extra_keys t).
