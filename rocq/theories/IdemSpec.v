(** Vocabulary of C68: formatting, and what a document must have for its formatting to be settled. *)
From Coq Require Import SpecFloat.
From Verif Require Import Base Num OMap OMapSpec Keys Yaml Values Assign Formats Meta Out Xml Example DataType Marshal Doc Api Library
  TypeFacts Fields FacetSpec WriteSpec RoundSpec Same ExRound ApiSpec Stable.

(** Loading and saving. *)
Definition format_type {F : FloatIO} (n : node) : res node := do d <- hat n; to_yaml d.
Definition format_api {F : FloatIO} (n : node) : res node := do a <- api_unmarshal n new_api; api_marshal a.
Definition format_library {F : FloatIO} (n : node) : res node := do l <- lib_unmarshal n new_library; lib_marshal l.

(** Formatting what is formatted changes nothing: the second time gives the document that the first time gave, whenever both succeed. *)
Definition settles (format : node -> res node) : Prop :=
  forall n n1 n2, format n = Ok n1 -> format n1 = Ok n2 -> n2 = n1.

(** ** What a document must have *)

Definition exact_ex {F : FloatIO} (e : ex) : Prop :=
  (forall x, ex_value e = Some (GFloat x) -> exact_float x) /\
  (forall x v, In (KFloat x, v) (ents (ex_extra e)) -> to_scalar (float_node x) = Ok (KFloat x)).

(** At every depth: the type string has its kind, no extra facet has a name that begins with a parenthesis (but in a nil type or an include), the text of every float64
    means it again. *)
Inductive regular {F : FloatIO} : dtype -> Prop :=
| regular_type d :
    (d_kind d <> TyInclude -> named (d_type d) (d_kind d)) ->
    (d_kind d <> TyNil -> d_kind d <> TyInclude -> forall s, In (KStr s) (extra_keys d) -> starts_paren s = false) ->
    (forall f x, getf f d = Some (VOptFloat (Some x)) -> exact_float x) ->
    (forall l x, getf FEnum d = Some (VVals (Some l)) -> In (GFloat x) l -> exact_float x) ->
    (forall e, getf FExample d = Some (VEx (Some e)) -> exact_ex e) ->
    (forall m s e, getf FExamples d = Some (VExs m) -> In (s, e) (ents m) -> exact_ex e) ->
    (forall t, getf FItems d = Some (VOptType (Some t)) -> regular t) ->
    (forall m s t, getf FProps d = Some (VTypes m) -> In (s, t) (ents m) -> regular t) ->
    regular d.

(** The text of every floating-point key means it again. *)
Definition exact_keys {F : FloatIO} (m : amap gkey gval) : Prop :=
  forall x v, In (KFloat x, v) (ents m) -> to_scalar (float_node x) = Ok (KFloat x).

(** The text of a floating-point key is not the name of a part of a library. *)
Definition plain_keys {F : FloatIO} (m : amap gkey gval) : Prop :=
  forall x v, In (KFloat x, v) (ents m) -> ~ In (snd (float_text x)) lib_names.
