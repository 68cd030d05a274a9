(** C95: what was saved loads again, also if a program put nil into a map. *)
From Coq Require Import SpecFloat.
From Verif Require Import Base Num OMap OMapSpec OMapProofs MapFacts Keys Yaml Values Assign Meta Out Example DataType Marshal Doc Api Library AssignProofs Idem NilEntries.

#[local] Instance toy : FloatIO := {|
  float_of t s := match t with TFloat => if String.eqb s "0.0" then Some (S754_zero false) else None | _ => None end;
  float_text f := (TFloat, "0.0")
|}.
Local Notation s_ := str_node.

(** False of every map of types that holds nil: no API document and no library loads in which the saved map stands under `types` (or
    `schemas`), whatever else it contains. *)
Theorem C95_types_refuted (F : FloatIO) (m : amap string (option dtype)) n k t pre post : holds_nil m -> nil_map_to_yaml to_yaml m = Ok n ->
  In k ["types"; "schemas"] ->
  (forall a r, api_unmarshal (Map t (pre ++ (str_node k, n) :: post)) a <> Ok r) /\
  (forall a r, lib_unmarshal (Map t (pre ++ (str_node k, n) :: post)) a <> Ok r).
Proof.
  intros N W K. split; intros a r; apply key_not_read; intros a1 a2 H; destruct K as [<-|[<-|[]]]; cbn in H; apply bind_ok in H as [x [H _]];
    exact (nil_not_read to_yaml hat m n _ x hat_null N W H).
Qed.
Print Assumptions C95_types_refuted.

(** ... of properties, facet definitions and the types in them, annotations, and the examples of types whose examples cannot be null. *)
Theorem C95_in_types_refuted (F : FloatIO) n :
  (forall (m : amap string (option dtype)) m0 r, holds_nil m -> nil_map_to_yaml to_yaml m = Ok n -> read_properties (fun v => hat v) m0 n <> Ok r) /\
  (forall (m : amap string (option (amap string dtype))) m0 r, holds_nil m -> nil_map_to_yaml (types_to_yaml to_yaml) m = Ok n ->
     read_facets (fun v => hat v) m0 n <> Ok r) /\
  (forall (m : amap string (option dtype)) m0 r, holds_nil m -> nil_map_to_yaml to_yaml m = Ok n -> read_types m0 n <> Ok r) /\
  (forall (m : amap string (option untyped)) m0 r, holds_nil m -> nil_map_to_yaml untyped_to_yaml m = Ok n -> read_annotations m0 n <> Ok r) /\
  (forall k (m : amap string (option ex)) m0 r, float_of TNull "null" = None -> example_takes_null k = false -> holds_nil m ->
     nil_map_to_yaml ex_to_yaml m = Ok n -> read_examples k m0 n <> Ok r).
Proof.
  split; [|split; [|split; [|split]]].
  - intros m m0 r. apply nil_not_read. intros w. apply property_null.
  - intros m m0 r. apply nil_not_read. discriminate.
  - intros m m0 r. apply nil_not_read. apply hat_null.
  - intros m m0 r. apply nil_not_read. discriminate.
  - intros k m m0 r T K. apply nil_not_read. intros w. apply example_null; assumption.
Qed.
Print Assumptions C95_in_types_refuted.

(** A nil annotation of an API document or a library is an entry `(name): null` of the document itself. *)
Theorem C95_annotations_refuted (F : FloatIO) s t pre post :
  (forall a r, api_unmarshal (Map t (pre ++ (str_node (String "(" s), null_node) :: post)) a <> Ok r) /\
  (forall a r, lib_unmarshal (Map t (pre ++ (str_node (String "(" s), null_node) :: post)) a <> Ok r).
Proof. split; intros a r; apply key_not_read; discriminate. Qed.
Print Assumptions C95_annotations_refuted.
Example C95_case : exists n, holds_nil (mkMap [("a", Some (new_type TyString)); ("b", None)] false) /\
  nil_map_to_yaml to_yaml (mkMap [("a", Some (new_type TyString)); ("b", None)] false) = Ok n /\
  n = Map TMap [(s_ "a", s_ "string"); (s_ "b", null_node)].
Proof. eexists. split; [exists "b"; cbn; auto|]. split; reflexivity. Qed.

(** It holds of the untyped maps (traits, resource types, security schemes, ...): a map with nil in it, after any history, is read back with the
    same keys in the same order; nil comes back as the node null, and every other value as the node it was written as. *)
Theorem C95_untyped_partial (F : FloatIO) (m : omap string gval) n : sm_reachable m -> outOrder m = false ->
  map_to_yaml skey_node to_node (view m) = Ok n ->
  exists m', read_map sm_put as_gnode new_map n = (m', Ok tt) /\
    Forall2 (fun e e' => fst e = fst e' /\ exists x, to_node (snd e) = Ok x /\ snd e' = GNode x) (entries m) (entries m') /\
    (forall k, In (k, GNil) (entries m) -> In (k, GNode null_node) (entries m')).
Proof.
  intros R O W. rewrite map_to_yaml_spec in W. cbn [ents oord view] in W. rewrite O in W. apply bind_ok in W as [l [W E]]. injection E as <-.
  apply map_res_entries in W.
  assert (N : sm_reachable (@new_map string gval)) by (exists []; reflexivity).
  set (kvs := map (fun p : node * node => (value (fst p), GNode (snd p))) l).
  assert (K : Forall2 (fun (e e' : string * gval) => fst e = fst e' /\ exists x, to_node (snd e) = Ok x /\ snd e' = GNode x) (ordered m) kvs).
  { unfold kvs. clear - W. induction W as [|e p es l [A B] _ IH]; [constructor|]. cbn. constructor; [|exact IH].
    cbn in A. injection A as A. rewrite <- A. cbn. split; [reflexivity|]. exists (snd p). auto. }
  assert (A : Forall2 (accepts as_gnode) l kvs).
  { unfold kvs. clear - W. induction W as [|e p es l [A B] _ IH]; [constructor|]. cbn. constructor; [|exact IH].
    cbn in A. injection A as A. split; [|reflexivity]. cbn. rewrite <- A. split; reflexivity. }
  assert (U : NoDup (map fst kvs)).
  { assert (Q : map fst kvs = map fst (ordered m)) by (clear - K; induction K as [|e e' a b [H _] _ IH]; cbn; congruence).
    rewrite Q. apply uniq_nodup. exact (inv_uniq _ _ _ _ _ (sm_inv gval m R)). }
  destruct (exec_puts_nodup gval kvs U [] new_map N eq_refl U) as (m' & X & Y & _).
  exists m'. rewrite !entries_ordered.
  destruct (read_map_spec gval as_gnode new_map N l TMap) as (l1 & kvs' & m2 & A' & X' & [[<- Z]|(e & l2 & -> & B & _)]).
  - assert (kvs' = kvs).
    { clear - A A'. revert kvs' A'. induction A as [|e [k v] l kvs [[_ P] Q] _ IH]; intros kvs' A'; inversion A' as [|? [k' v'] ? ? [[_ P'] Q'] H]; subst; [reflexivity|].
      f_equal; [cbn in *; congruence|apply IH; exact H]. }
    subst kvs'. assert (m2 = m') as -> by congruence. split; [exact Z|]. cbn [app] in Y. rewrite Y. split; [exact K|].
    intros k I. clear - K I. induction K as [|e e' a b [P (x & Q & S1)] _ IH]; [destruct I|]. destruct I as [->|I]; [|right; apply IH; exact I].
    left. cbn in P, Q. injection Q as Q. destruct e'; cbn in *. congruence.
  - exfalso. apply Forall2_app_inv_l in A as (a & b & _ & Hb & _). inversion Hb as [|x y xs ys Hy Hys]; subst. exact (B _ Hy).
Qed.
Print Assumptions C95_untyped_partial.
Example C95_untyped_case : exists m : omap string gval,
  sm_exec new_map [OPut "a" (GStr "x"); OPut "b" GNil; OSerializeOrdered false] = Ok m /\
  map_to_yaml skey_node to_node (view m) = Ok (Map TMap [(s_ "a", s_ "x"); (s_ "b", null_node)]).
Proof. eexists. split; reflexivity. Qed.
