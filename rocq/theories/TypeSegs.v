(** What a type definition puts out, as one list of pairs. *)
From Coq Require Import SpecFloat.
From Verif Require Import Base Num OMap OMapSpec Keys Yaml Values Assign Formats Meta Out Xml Example DataType Marshal
  AssignProofs TypeFacts Fields FieldProofs FacetSpec FacetProofs DocProofs OrderProofs PathProofs Segs ExProofs Same ExRound.

Section Segs.
  Context {F : FloatIO}.
  Variable ty : dtype -> res node.

  Definition type_node (b : base) : node :=
    match b_kind b with TyInclude => Scal TInclude (b_schema b) | _ => str_node (b_schema b) end.

  Definition extra_segs (b : base) : outm := all_seg (fun k => k) to_node (ents (b_extra b)).

  Definition spec_segs (s : spec dtype) : outm :=
    match s with
    | SNone => []
    | SArray u mn mx it =>
      if_seg (negb (Bool.eqb u false)) "uniqueItems" (Ok (bool_node u)) ++
      if_seg (negb (mn =? 0)%Z) "minItems" (Ok (int_node mn)) ++
      if_seg (negb (mx =? 2147483647)%Z) "maxItems" (Ok (int_node mx)) ++
      opt_seg "items" (option_map ty it)
    | SDatetime f => opt_seg "format" (str_opt f)
    | SFile ft mn mx =>
      opt_seg "fileTypes" (option_map (fun l => Ok (Seq TSeq (map str_node l))) ft) ++
      if_seg (negb (mn =? 0)%Z) "minLength" (Ok (int_node mn)) ++
      if_seg (negb (mx =? 2147483647)%Z) "maxLength" (Ok (int_node mx))
    | SInteger f mn mx mu =>
      opt_seg "format" (str_opt f) ++ opt_seg "minimum" (int_opt mn) ++ opt_seg "maximum" (int_opt mx) ++
      opt_seg "multipleOf" (float_opt mu)
    | SNumber f mn mx mu =>
      opt_seg "format" (str_opt f) ++ opt_seg "minimum" (float_opt mn) ++ opt_seg "maximum" (float_opt mx) ++
      opt_seg "multipleOf" (float_opt mu)
    | SObject ps mn mx ad di dv =>
      if_seg (negb ad) "additionalProperties" (Ok (bool_node ad)) ++
      opt_seg "minProperties" (int_opt mn) ++ opt_seg "maxProperties" (int_opt mx) ++
      opt_seg "discriminator" (str_opt di) ++ opt_seg "discriminatorValue" (option_map to_node dv) ++
      if_seg (nonempty ps) "properties" (types_to_yaml ty ps)
    | SString p mn mx =>
      opt_seg "pattern" (str_opt p) ++ if_seg (0 <? mn)%Z "minLength" (Ok (int_node mn)) ++ opt_seg "maxLength" (int_opt mx)
    end.

  (** The pairs before and after those of the extra facets; the annotations. *)
  Definition head_segs (d : dtype) : outm :=
    match d with
    | TBase b => []
    | TExt b x f c s =>
      opt_seg "default" (option_map to_node (c_def c)) ++
      opt_seg "displayName" (str_opt (x_display x)) ++ opt_seg "description" (str_opt (x_descr x))
    end.
  Definition ann_segs (d : dtype) : outm :=
    match d with
    | TBase b => []
    | TExt b x f c s => all_seg KStr untyped_to_yaml (ents (x_anns x))
    end.
  Definition required_seg (d : dtype) : outm :=
    match d with
    | TBase b => []
    | TExt b x f c s => if_seg (negb (x_required x)) "required" (Ok (bool_node (x_required x)))
    end.
  Definition tail_segs (d : dtype) : outm :=
    match d with
    | TBase b => []
    | TExt b x f c s =>
      if_seg (nonempty f) "facets" (facets_to_yaml ty f) ++
      opt_seg "xml" (option_map xml_node (x_xml x)) ++
      spec_segs s ++
      opt_seg "enum" (option_map (fun l => to_node (GList l)) (c_enum c)) ++
      opt_seg "example" (option_map ex_to_yaml (c_example c)) ++
      if_seg (nonempty (c_examples c)) "examples" (examples_to_yaml (c_examples c))
    end.

  Definition segs (d : dtype) : outm :=
    head_segs d ++ [(KStr "type", Ok (type_node (d_base d)))] ++ extra_segs (d_base d) ++
    required_seg d ++ ann_segs d ++ tail_segs d.

  Lemma spec_marshal_segs s o : spec_marshal ty s o = puts_all (spec_segs s) o.
  Proof.
    destruct s; cbn [spec_marshal spec_segs]; rewrite ?puts_all_app, ?oput_opt_puts, ?oput_if_puts; reflexivity.
  Qed.

  Lemma type_marshal_segs d o : b_kind (d_base d) <> TyInclude \/ (exists b, d = TBase b) ->
    type_marshal ty d o = puts_all (segs d) o.
  Proof.
    intros H. destruct d as [b|b x f c s]; unfold segs; cbn [type_marshal short_marshal full_marshal head_segs ann_segs required_seg tail_segs d_base app].
    - rewrite app_nil_r. change (puts_all ((KStr "type", Ok (type_node b)) :: extra_segs b) o) with
        (puts_all (extra_segs b) (oput (KStr "type") (Ok (type_node b)) o)). unfold extra_segs, type_node.
      rewrite <- oput_all_puts. unfold short_marshal. destruct (b_kind b); reflexivity.
    - unfold full_marshal, ext_marshal, base_marshal. rewrite spec_marshal_segs.
      rewrite !puts_all_app, !oput_opt_puts, !oput_if_puts, !oput_all_puts. unfold extra_segs.
      assert (E : Ok (type_node b) = Ok (str_node (b_schema b))).
      { destruct H as [H|[b' H]]; [|discriminate]. unfold type_node. cbn in H. destruct (b_kind b); congruence. }
      rewrite E. change (puts_all ((KStr "type", Ok (str_node (b_schema b))) :: all_seg (fun k => k) to_node (ents (b_extra b)) ++ ?r))
        with (puts_all ([(KStr "type", Ok (str_node (b_schema b)))] ++ (all_seg (fun k => k) to_node (ents (b_extra b)) ++ r))).
      rewrite !puts_all_app. reflexivity.
  Qed.
End Segs.
