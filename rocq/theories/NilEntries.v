(** Nil in the maps: Put of every map but StringMap takes nil (PutIfNotNil is there to leave it out).

    A map that may hold nil has values in [option V]; the values of the other files are never nil. *)
From Coq Require Import SpecFloat.
From Verif Require Import Base Num OMap OMapSpec OMapProofs MapFacts Keys Yaml Values Assign Meta Out Example DataType Marshal Doc Api Library AssignProofs Idem.

(** xyml.ToYamlNode on the value of an entry: nil is written as null (contract 5). *)
Definition or_null {V} (vn : V -> res node) (v : option V) : res node :=
  match v with None => Ok null_node | Some x => vn x end.

(** ToYAML of a map that may hold nil, DataTypeMap.go:125-151 and its siblings *)
Definition nil_map_to_yaml {V} (vn : V -> res node) (m : amap string (option V)) : res node := map_to_yaml skey_node (or_null vn) m.

(** The map holds nil under some key. *)
Definition holds_nil {V} (m : amap string (option V)) : Prop := exists k, In (k, None) (ents m).

Section Facts.
  Context {F : FloatIO}.

  Lemma nil_written {V} (vn : V -> res node) (m : amap string (option V)) n k : nil_map_to_yaml vn m = Ok n -> In (k, None) (ents m) ->
    (exists l, n = Map TMap l /\ In (str_node k, null_node) l) \/ (exists l, n = Seq TOMap l).
  Proof.
    unfold nil_map_to_yaml. rewrite map_to_yaml_spec. intros H I. apply bind_ok in H as [l [H E]]. injection E as <-.
    destruct (oord m); [right; eexists; reflexivity|left]. exists l. split; [reflexivity|].
    apply map_res_entries in H. clear - H I. induction H as [|e p es l [A B] _ IH]; [destruct I|]. destruct I as [->|I]; [|right; apply IH; exact I].
    left. cbn in A, B. injection A as A. injection B as B. destruct p as [a b]; cbn in *; congruence.
  Qed.

  (** A reader of values that does not take null does not read such a map back. *)
  Lemma nil_not_read {V W} (vn : V -> res node) (dec : node -> res W) (m : amap string (option V)) n m0 r :
    (forall w, dec null_node <> Ok w) -> holds_nil m -> nil_map_to_yaml vn m = Ok n -> read_amap dec m0 n <> Ok r.
  Proof.
    intros D [k I] H R. destruct (nil_written vn m n k H I) as [(l & -> & J)|(l & ->)]; [|discriminate R].
    unfold read_amap in R. cbn in R. destruct (fold_res_in _ l m0 r _ R J) as (a1 & a2 & S1). unfold read_amap_pair in S1. cbn in S1.
    apply bind_ok in S1 as [w [S1 _]]. exact (D w S1).
  Qed.

  Lemma hat_null d : hat null_node <> Ok d.
  Proof. discriminate. Qed.

  Lemma property_null d : (do d <- hat null_node; as_property d) <> Ok d.
  Proof. discriminate. Qed.

  (** The kinds of types whose examples are not null. *)
  Definition example_takes_null (k : dkind) : bool :=
    match k with TyAny | TyCustom | TyFile | TyObject | TyUnion => true | _ => false end.

  Lemma example_null k e : float_of TNull "null" = None -> example_takes_null k = false -> read_ex k null_node <> Ok e.
  Proof. intros H. destruct k; cbn; try discriminate. rewrite H. discriminate. Qed.

  Lemma key_not_read {A} (f : A -> node * node -> res A) e t pre post a r : (forall a1 a2, f a1 e <> Ok a2) ->
    map_fold f a (Map t (pre ++ e :: post)) <> Ok r.
  Proof.
    intros D R. cbn in R. assert (I : In e (pre ++ e :: post)) by (apply in_or_app; right; left; reflexivity).
    destruct (fold_res_in _ _ a r _ R I) as (a1 & a2 & H). exact (D a1 a2 H).
  Qed.
End Facts.
