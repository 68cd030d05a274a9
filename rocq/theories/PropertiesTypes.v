(** Properties C21 - C28, C39, C40, C44: reading type definitions. *)
From Coq Require Import SpecFloat.
From Verif Require Import Base Num OMap OMapSpec Keys Yaml Values Assign Formats Meta Out Xml Example DataType Marshal
  AssignProofs TypeFacts Fields FieldProofs FacetSpec FacetProofs DocProofs TypeWrite.

(** Some float conversion, for the examples. *)
#[local] Instance toy : FloatIO := {
  float_of := fun _ s => if String.eqb s "0.5" then Some (S754_finite false 1 (-1)) else None;
  float_text := fun _ => (TFloat, "0.5")
}.

Local Notation s_ := str_node.

(** C21.  [named] (TypeFacts.v) is the specification: which text denotes which kind. *)
Theorem C21_string_classified (F : FloatIO) :
  (forall n s, denotes_string n s ->
     exists d, hat n = Ok d /\ named s (d_kind d) /\ d_type d = s /\ d = set_schema s (new_type (d_kind d))) /\
  (forall s k1 k2, named s k1 -> named s k2 -> k1 = k2).
Proof. exact (conj string_classified named_fun). Qed.
Print Assumptions C21_string_classified.
Example C21_case :
  map (fun s => match hat (s_ s) with Ok d => Some (d_kind d, d_type d) | _ => None end)
      ["date-only"; "!include a|b"; "a | b"; "Date-only"; ""] =
  [Some (TyDateOnly, "date-only"); Some (TyInclude, "!include a|b"); Some (TyUnion, "a | b");
   Some (TyCustom, "Date-only"); Some (TyCustom, "")].
Proof. reflexivity. Qed.

(** C22.  [classified] (DocProofs.v) is the specification; it determines the kind. *)
Theorem C22_expanded_classified (F : FloatIO) :
  (forall t l d, t <> TStr -> hat (Map t l) = Ok d -> classified l (d_kind d)) /\
  (forall l k1 k2, classified l k1 -> classified l k2 -> k1 = k2).
Proof. exact (conj expanded_kind classified_fun). Qed.
Print Assumptions C22_expanded_classified.
Example C22_case :
  map (fun l => match hat (Map TMap l) with Ok d => Some (d_kind d) | _ => None end)
      [ [(s_ "items", s_ "a"); (s_ "schema", s_ "number")];
        [(s_ "items", s_ "a"); (s_ "properties", Map TMap [])];
        [(s_ "foo", s_ "a"); (s_ "items", s_ "b")];
        [(s_ "foo", s_ "a")]; [] ] =
  [Some TyNumber; Some TyObject; Some TyArray; Some TyString; Some TyString].
Proof. reflexivity. Qed.

(** C23 is false: the empty definition is rejected. *)
Theorem C23_forms_refuted (F : FloatIO) : hat (Scal TNull "") = Err.
Proof. exact forms_refuted. Qed.
Print Assumptions C23_forms_refuted.
(** What holds of C23: strings and includes are accepted, the other scalars and sequences rejected with an error. *)
Theorem C23_forms_partial (F : FloatIO) :
  (forall tg v, match tg with
                | TStr => hat (Scal tg v) = Ok (set_schema v (new_type (kind_of v)))
                | TInclude => hat (Scal tg v) = Ok (set_schema v (new_type TyInclude))
                | _ => hat (Scal tg v) = Err
                end) /\
  (forall tg l, tg <> TStr -> hat (Seq tg l) = Err) /\
  hat (Map TMap []) = Ok (new_type TyString).
Proof. exact (conj scalar_forms (conj seq_forms eq_refl)). Qed.
Print Assumptions C23_forms_partial.
Example C23_case : hat (Scal TInt "1") = Err /\ hat (Scal TInclude "x.raml") = Ok (set_schema "x.raml" (new_type TyInclude)).
Proof. split; reflexivity. Qed.

(** C24 *)
Theorem C24_type_and_kind_fit (F : FloatIO) t pre key val post d :
  t <> TStr -> hat (Map t (pre ++ (key, val) :: post)) = Ok d ->
  no_type_key pre -> no_type_key post -> (value key = "type" \/ value key = "schema") ->
  denotes_string val (d_type d) /\ named (d_type d) (d_kind d).
Proof. exact (declared_type t pre key val post d). Qed.
Print Assumptions C24_type_and_kind_fit.
Example C24_case :
  match hat (Map TMap ([(s_ "maximum", int_node 3)] ++ (s_ "type", s_ "integer") :: [(s_ "foo", s_ "a")])) with
  | Ok d => d_type d = "integer" /\ d_kind d = TyInteger
  | _ => False
  end.
Proof. split; reflexivity. Qed.

(** C25 is false: a negative number for an unsigned facet is not what the getter answers (C19). *)
Theorem C25_facets_reach_getters_refuted (F : FloatIO) :
  exists d, hat (Map TMap [(s_ "type", s_ "string"); (s_ "minLength", Scal TInt "-1")]) = Ok d /\
            getf FMinLength d = Some (VInt 18446744073709551615).
Proof. eexists. split; reflexivity. Qed.
Print Assumptions C25_facets_reach_getters_refuted.

(** What holds of C25, missing the negative numbers.  [declared] (FacetSpec.v) is the specification: which value a node declares for a facet. *)
Theorem C25_facets_reach_getters_partial (F : FloatIO) :
  (* one key sets exactly one field *)
  (forall d key val f old, shaped d -> In f (facets_of (d_kind d)) -> facet_key f = Some (value key) ->
     getf f d = Some old ->
     (forall d', type_assign hat d (key, val) = Ok d' ->
        exists v, declared reads (d_kind d) f val old v /\ getf f d' = Some v /\
                  d_kind d' = d_kind d /\ (forall g, g <> f -> getf g d' = getf g d)) /\
     (forall v, declared reads (d_kind d) f val old v ->
        exists d', type_assign hat d (key, val) = Ok d' /\ getf f d' = Some v)) /\
  (* in a whole definition *)
  (forall t pre key val post d f, t <> TStr -> hat (Map t (pre ++ (key, val) :: post)) = Ok d ->
     In f (facets_of (d_kind d)) -> facet_key f = Some (value key) ->
     ~ mentions (value key) pre -> ~ mentions (value key) post ->
     exists v, declared reads (d_kind d) f val (default_value (d_kind d) f) v /\ getf f d = Some v) /\
  (* the fields are all there is *)
  (forall d d', d_kind d = d_kind d' -> (forall f, getf f d = getf f d') -> d = d') /\
  (forall n d, hat n = Ok d -> shaped d).
Proof. exact (conj (facet_assign hat) (conj facet_once (conj field_ext hat_shaped))). Qed.
Print Assumptions C25_facets_reach_getters_partial.
Example C25_case :
  match hat (Map TMap [(s_ "maxLength", int_node 9); (s_ "pattern", s_ "^a"); (s_ "minLength", int_node 2);
                       (s_ "enum", Seq TSeq [s_ "a"; s_ "b"])]) with
  | Ok d => map (fun f => getf f d) [FMinLength; FMaxLength; FPattern; FEnum; FRequired; FItems] =
            [Some (VInt 2); Some (VOptInt (Some 9%Z)); Some (VOptStr (Some "^a"));
             Some (VVals (Some [GStr "a"; GStr "b"])); Some (VBool true); None]
  | _ => False
  end.
Proof. reflexivity. Qed.
Example C25_case_nested :
  match hat (Map TMap [(s_ "properties", Map TMap [(s_ "a", s_ "integer");
               (s_ "b", Map TMap [(s_ "items", s_ "T"); (s_ "uniqueItems", bool_node true)])])]) with
  | Ok d => match getf FProps d with
            | Some (VTypes m) => map (fun e => (fst e, d_kind (snd e), getf FUnique (snd e))) (ents m) =
                [("a", TyInteger, None); ("b", TyArray, Some (VBool true))]
            | _ => False
            end
  | _ => False
  end.
Proof. reflexivity. Qed.

(** C26 is false of the empty key, which panics (C29), and a key that is not a string comes back as one. *)
Theorem C26_unknown_facets_kept_refuted (F : FloatIO) :
  hat (Map TMap [(s_ "type", s_ "string"); (s_ "", s_ "x")]) = Panic /\
  exists d, hat (Map TMap [(s_ "type", s_ "string"); (Scal TInt "1", s_ "x")]) = Ok d /\ ents (d_extra d) = [(KStr "1", GNode (s_ "x"))].
Proof. split; [reflexivity|]. eexists. split; reflexivity. Qed.
Print Assumptions C26_unknown_facets_kept_refuted.

(** What holds of C26: every key but the empty one is kept, under its text. *)
Theorem C26_unknown_facets_kept_partial (F : FloatIO) :
  (* one key *)
  (forall d key val, shaped d -> extra_key (d_kind d) key = true -> ~ denotes_string key "" ->
     exists d', type_assign hat d (key, val) = Ok d' /\
       d_extra d' = kput (KStr (value key)) (GNode val) (d_extra d) /\
       d_kind d' = d_kind d /\ (forall g, g <> FExtra -> getf g d' = getf g d)) /\
  (* a whole definition *)
  (forall t l d, t <> TStr -> hat (Map t l) = Ok d ->
     d_extra d = fold_left put_extra (filter (fun e => extra_key (d_kind d) (fst e)) l) (mkMap [] true)) /\
  (* which is, for distinct keys, the list of the unknown keys and their values *)
  (forall l, NoDup (map (fun e => value (fst e)) l) ->
     fold_left put_extra l (mkMap [] true) = mkMap (map (fun e => (KStr (value (fst e)), GNode (snd e))) l) true).
Proof. exact (conj (extra_assign hat) (conj extras_read put_extra_fresh)). Qed.
Print Assumptions C26_unknown_facets_kept_partial.
Example C26_case :
  match hat (Map TMap [(s_ "zeta", Seq TSeq []); (s_ "minLength", int_node 2); (s_ "items", s_ "a");
                       (s_ "type", s_ "string"); (Scal TInt "1", s_ "b")]) with
  | Ok d => ents (d_extra d) = [(KStr "zeta", GNode (Seq TSeq [])); (KStr "items", GNode (s_ "a")); (KStr "1", GNode (s_ "b"))]
  | _ => False
  end.
Proof. reflexivity. Qed.

(** C27 is false: Default() is unset after reading any definition, and a default that was read wins over SetDefault when the
    type is written. *)
Theorem C27_default_refuted (F : FloatIO) :
  (forall n d, hat n = Ok d -> getf FDefault d = None \/ getf FDefault d = Some (VOptVal None)) /\
  (exists d d', hat (Map TMap [(s_ "default", s_ "old")]) = Ok d /\
     d' = setf FDefault (VOptVal (Some (GStr "new"))) d /\
     to_yaml d' = Ok (Map TMap [(s_ "type", s_ "string"); (s_ "default", s_ "old")])).
Proof.
  split; [exact default_never_read|]. eexists; eexists. split; [reflexivity|]. split; [reflexivity|]. reflexivity.
Qed.
Print Assumptions C27_default_refuted.

(** C28 *)
Theorem C28_absent_facets_default (F : FloatIO) t l d f s :
  t <> TStr -> hat (Map t l) = Ok d -> In f (facets_of (d_kind d)) -> facet_key f = Some s -> ~ mentions s l ->
  getf f d = Some (default_value (d_kind d) f).
Proof. exact (facet_absent t l d f s). Qed.
Print Assumptions C28_absent_facets_default.
Example C28_case :
  match hat (Map TMap [(s_ "items", s_ "a"); (s_ "foo", s_ "b"); (s_ "minItems", int_node 4)]) with
  | Ok d => map (fun f => getf f d) [FMinItems; FMaxItems; FUnique; FRequired; FDescr] =
            [Some (VInt 4); Some (VInt 2147483647); Some (VBool false); Some (VBool true); Some (VOptStr None)]
  | _ => False
  end.
Proof. reflexivity. Qed.

(** C39 is false: an expanded definition whose type is an include is never readable, and an include written as a string
    comes back with the tag put before the whole text. *)
Theorem C39_includes_refuted (F : FloatIO) :
  (forall t pre key val post, t <> TStr -> no_type_key pre -> (value key = "type" \/ value key = "schema") ->
     node_tag val = TInclude -> forall d, hat (Map t (pre ++ (key, val) :: post)) <> Ok d) /\
  (exists d, hat (s_ "!include x") = Ok d /\ to_yaml d = Ok (Scal TInclude "!include x")).
Proof.
  split; [exact include_expanded|]. eexists. split; reflexivity.
Qed.
Print Assumptions C39_includes_refuted.
(** What holds of C39: the include as whole definition. *)
Theorem C39_includes_partial (F : FloatIO) p :
  exists d, hat (Scal TInclude p) = Ok d /\ d_kind d = TyInclude /\ d_type d = p /\ to_yaml d = Ok (Scal TInclude p).
Proof. exact (include_whole p). Qed.
Print Assumptions C39_includes_partial.
Example C39_case : exists d, hat (Scal TInclude "lib/a.raml") = Ok d /\ to_yaml d = Ok (Scal TInclude "lib/a.raml").
Proof. eexists; split; reflexivity. Qed.

(** C40 is false: a property of type nil makes the reader panic. *)
Theorem C40_property_types_refuted (F : FloatIO) :
  hat (s_ "nil") = Ok (new_type TyNil) /\
  hat (Map TMap [(s_ "properties", Map TMap [(s_ "a", s_ "nil")])]) = Panic.
Proof. split; reflexivity. Qed.
Print Assumptions C40_property_types_refuted.
(** What holds of C40: a property may have any acceptable type but nil and include; for these two the reader panics. *)
Theorem C40_property_types_partial (F : FloatIO) m k v : (exists s, denotes_string k s) ->
  match hat v with
  | Ok (TExt b x f c s) => exists s0, denotes_string k s0 /\
      read_properties hat m (Map TMap [(k, v)]) = Ok (mput s0 (TExt b x f c s) m)
  | Ok (TBase _) => read_properties hat m (Map TMap [(k, v)]) = Panic
  | Err => read_properties hat m (Map TMap [(k, v)]) = Err
  | Panic => read_properties hat m (Map TMap [(k, v)]) = Panic
  end.
Proof. exact (property_assign m k v). Qed.
Print Assumptions C40_property_types_partial.
Example C40_case : exists d, hat (Map TMap [(s_ "properties", Map TMap [(s_ "a", s_ "x | nil")])]) = Ok d /\ d_kind d = TyObject.
Proof. eexists; split; reflexivity. Qed.

(** C44 *)
Theorem C44_enum_in_order (F : FloatIO) t pre key val post d :
  t <> TStr -> hat (Map t (pre ++ (key, val) :: post)) = Ok d -> In FEnum (facets_of (d_kind d)) ->
  value key = "enum" -> ~ mentions "enum" pre -> ~ mentions "enum" post ->
  exists tg ns vs o, val = Seq tg ns /\ Forall2 (enum_value (d_kind d)) ns vs /\
    getf FEnum d = Some (VVals o) /\ opt_list o = vs.
Proof. exact (enum_read t pre key val post d). Qed.
Print Assumptions C44_enum_in_order.
Example C44_case :
  (exists d, hat (Map TMap [(s_ "type", s_ "integer"); (s_ "enum", Seq TSeq [int_node 2; int_node 1; int_node 2])]) = Ok d /\
     getf FEnum d = Some (VVals (Some [GInt 2; GInt 1; GInt 2]))) /\
  hat (Map TMap [(s_ "type", s_ "integer"); (s_ "enum", Seq TSeq [int_node 2; s_ "x"])]) = Err.
Proof. split; [eexists; split; reflexivity|reflexivity]. Qed.
