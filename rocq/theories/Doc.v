(** v0/internal/raml/Documentation.go *)
From Coq Require Import SpecFloat.
From Verif Require Import Base Num OMap OMapSpec Keys Yaml Values Assign Meta Out.

(** Documentation.go:14-18 *)
Record doc : Type := mkDoc { doc_title : string; doc_content : string; doc_extra : amap gkey gval }.

(** Documentation.go:10-12 NewDocumentation *)
Definition new_doc : doc := mkDoc "" "" anew_unordered.

(** Documentation.go:49-65, the callback of UnmarshalRAML.  `d.title = v.Value`: whatever node v is. *)
Definition doc_assign {F : FloatIO} (d : doc) (e : node * node) : res doc :=
  if String.eqb (value (fst e)) KeyTitle then Ok (mkDoc (value (snd e)) (doc_content d) (doc_extra d))
  else if String.eqb (value (fst e)) KeyContent then Ok (mkDoc (doc_title d) (value (snd e)) (doc_extra d))
  else do k <- to_scalar (fst e); Ok (mkDoc (doc_title d) (doc_content d) (kput k (GNode (snd e)) (doc_extra d))).

(** Documentation.go:49-65 UnmarshalRAML *)
Definition doc_unmarshal {F : FloatIO} (n : node) (d : doc) : res doc := map_fold doc_assign d n.

(** Documentation.go:42-47 MarshalRAML *)
Definition doc_marshal {F : FloatIO} (d : doc) (o : outm) : outm :=
  oput_all (fun k => k) to_node (ents (doc_extra d))
  (oput (KStr KeyContent) (Ok (str_node (doc_content d)))
  (oput (KStr KeyTitle) (Ok (str_node (doc_title d))) o)).

(** The node an API document writes for a documentation entry: Documentation has no ToYAML method and no exported field, so the struct
    becomes an empty mapping (contract 5). *)
Definition doc_node (d : doc) : res node := Ok (Map TMap []).
