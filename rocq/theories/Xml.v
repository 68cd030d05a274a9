(** v0/internal/raml/type-xml.go *)
From Verif Require Import Base Num OMap OMapSpec Keys Yaml Values Assign Meta Out.

(** type-xml.go:18-25; [xml_extra] is a Go map *)
Record xml : Type := mkXml {
  xml_attr : option bool;
  xml_wrap : option bool;
  xml_name : option string;
  xml_ns : option string;
  xml_pref : option string;
  xml_extra : list (gkey * node)
}.

(** type-xml.go:12-16 NewXML *)
Definition new_xml : xml := mkXml None None None None None [].

(** type-xml.go:111-132 assign *)
Definition xml_assign {F : FloatIO} (x : xml) (e : node * node) : res xml :=
  let key := fst e in
  let val := snd e in
  let k := value key in
  if String.eqb k KeyAttribute then
    do v <- run_assign (as_bool_ptr val (xml_attr x));
    Ok (mkXml v (xml_wrap x) (xml_name x) (xml_ns x) (xml_pref x) (xml_extra x))
  else if String.eqb k KeyWrapped then
    do v <- run_assign (as_bool_ptr val (xml_wrap x));
    Ok (mkXml (xml_attr x) v (xml_name x) (xml_ns x) (xml_pref x) (xml_extra x))
  else if String.eqb k KeyName then
    do v <- run_assign (as_string_ptr val (xml_name x));
    Ok (mkXml (xml_attr x) (xml_wrap x) v (xml_ns x) (xml_pref x) (xml_extra x))
  else if String.eqb k KeyNamespace then
    do v <- run_assign (as_string_ptr val (xml_ns x));
    Ok (mkXml (xml_attr x) (xml_wrap x) (xml_name x) v (xml_pref x) (xml_extra x))
  else if String.eqb k KeyPrefix then
    do v <- run_assign (as_string_ptr val (xml_pref x));
    Ok (mkXml (xml_attr x) (xml_wrap x) (xml_name x) (xml_ns x) v (xml_extra x))
  else
    do s <- to_scalar key;
    Ok (mkXml (xml_attr x) (xml_wrap x) (xml_name x) (xml_ns x) (xml_pref x)
              (gomap_upd gkey_eqb s val (xml_extra x))).

(** type-xml.go:97-99 UnmarshalRAML *)
Definition xml_unmarshal {F : FloatIO} (n : node) (x : xml) : res xml := map_fold xml_assign x n.

(** type-xml.go:101-109 MarshalRAML into [out]; the extra keys are not written *)
Definition xml_marshal (x : xml) (o : outm) : outm :=
  oput_opt (KStr KeyPrefix) (option_map (fun s => Ok (str_node s)) (xml_pref x))
  (oput_opt (KStr KeyNamespace) (option_map (fun s => Ok (str_node s)) (xml_ns x))
  (oput_opt (KStr KeyName) (option_map (fun s => Ok (str_node s)) (xml_name x))
  (oput_opt (KStr KeyWrapped) (option_map (fun b => Ok (bool_node b)) (xml_wrap x))
  (oput_opt (KStr KeyAttribute) (option_map (fun b => Ok (bool_node b)) (xml_attr x)) o)))).

(** The node a type writes for its XML settings: XML has no ToYAML method and no exported field, so the struct becomes an
    empty mapping (contract 5). *)
Definition xml_node (x : xml) : res node := Ok (Map TMap []).
