(** C42: XML settings through their own marshal and unmarshal functions. *)
From Coq Require Import SpecFloat.
From Verif Require Import Base Num OMap OMapSpec Keys Yaml Values Assign Formats Meta Out Xml Example DataType AssignProofs Segs.

Lemma xml_assign_pref {F : FloatIO} x s : xml_assign x (str_node "prefix", str_node s) = Ok (mkXml (xml_attr x) (xml_wrap x) (xml_name x) (xml_ns x) (Some s) (xml_extra x)).
Proof. reflexivity. Qed.

Lemma xml_round {F : FloatIO} x : xml_extra x = [] ->
  exists n, out_to_yaml (xml_marshal x []) = Ok n /\ xml_unmarshal n new_xml = Ok x.
Proof.
  destruct x as [a w nm ns pf ex]. cbn [xml_extra]. intros ->. unfold xml_marshal. cbn [xml_attr xml_wrap xml_name xml_ns xml_pref].
  destruct a as [[]|], w as [[]|], nm as [nm|], ns as [ns|], pf as [pf|]; eexists; split; reflexivity.
Qed.

Lemma xml_marshal_again {F : FloatIO} n x : xml_unmarshal n new_xml = Ok x ->
  exists n', out_to_yaml (xml_marshal x []) = Ok n' /\
    xml_unmarshal n' new_xml = Ok (mkXml (xml_attr x) (xml_wrap x) (xml_name x) (xml_ns x) (xml_pref x) []).
Proof.
  intros _. destruct (xml_round (mkXml (xml_attr x) (xml_wrap x) (xml_name x) (xml_ns x) (xml_pref x) []) eq_refl) as [n' [H1 H2]].
  exists n'. split; [exact H1|exact H2].
Qed.
