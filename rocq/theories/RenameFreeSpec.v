(** Giving other names to the annotations and the unknown facets of a type definition. *)
From Verif Require Import Base Num OMap OMapSpec Keys Yaml Values Assign Formats Meta Example DataType Fields FacetSpec RenameSpec RenameTopSpec.

(** The keys without a meaning for a kind.  `properties` and `items` have one for every kind, as the kind may follow from them. *)
Definition no_meaning (k : dkind) (s : string) : bool := negb (existsb (String.eqb s) ("" :: "properties" :: "items" :: known_keys k))%string.

(** Other names: different ones for different keys, without a meaning too, of annotations for annotations only. *)
Definition fair_for (k : dkind) (r : string -> string) : Prop :=
  (forall a b, r a = r b -> a = b) /\ (forall s, no_meaning k s = true -> no_meaning k (r s) = true /\ starts_with "(" (r s) = starts_with "(" s).
Definition free_other (k : dkind) (r : string -> string) (s : string) : string := if no_meaning k s then r s else s.

(** The definition, and the object, with other names. *)
Definition rename_value (r : string -> string) (n : node) : node := match n with Scal t v => Scal t (r v) | _ => n end.
Definition rename_free (r : string -> string) (n : node) : node :=
  match n with Map t l => Map t (map (fun e => (rename_value r (fst e), snd e)) l) | _ => n end.
Definition rename_gkey (r : string -> string) (k : gkey) : gkey := match k with KStr s => KStr (r s) | _ => k end.
Definition rename_extra (r : string -> string) (m : amap gkey gval) : amap gkey gval := mkMap (map (fun e => (rename_gkey r (fst e), snd e)) (ents m)) (oord m).
Definition rename_base (r : string -> string) (b : base) : base := mkBase (b_schema b) (b_kind b) (rename_extra r (b_extra b)).
Definition rename_rest (r : string -> string) (d : dtype) : dtype :=
  match d with
  | TBase b => TBase (rename_base r b)
  | TExt b x f c s => TExt (rename_base r b) (mkExt (x_display x) (x_descr x) (rename_map r (x_anns x)) (x_xml x) (x_required x)) f c s
  end.
