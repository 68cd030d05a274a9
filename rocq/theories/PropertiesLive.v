(** Properties C66 and C67: the maps that getters return. *)
From Coq Require Import SpecFloat.
From Verif Require Import Base Num OMap OMapSpec MapFacts Keys Yaml Values Assign Formats Meta Out Xml Example DataType Marshal Doc Api Library Setters Live LiveSpec LiveProofs LiveMap.

(** Some float conversion, for the examples. *)
#[local] Instance toy : FloatIO := {
  float_of := fun _ s => if String.eqb s "0.5" then Some (S754_finite false 1 (-1)) else None;
  float_text := fun _ => (TFloat, "0.5")
}.

Local Notation s_ := str_node.
Local Notation m_ := (Map TMap).

(** ** C66: a getter returns the object's own map *)

(** A program has the map [r] from the getter [s] of the object [i].  Whatever it does then, short of replacing that map of that object: the getter returns the
    same map, and the object has in it what it had, with exactly the edits of [r] made since, in order. *)
Theorem C66_live : forall cs w i s r o c,
  reached w -> got w i s = Some r -> view w i = Some o -> get_map s o = Some c -> Forall (fun c => ~ replaces i s c) cs ->
  got (performs cs w) i s = Some r /\
  exists o', view (performs cs w) i = Some o' /\ get_map s o' = Some (fold_left (fun m e => edit_cell e m) (edits_of r cs) c).
Proof. exact live. Qed.
Print Assumptions C66_live.

(** An edit changes each object in the maps that are the edited one, and in nothing else. *)
Theorem C66_edit : forall w r e i o, reached w -> view w i = Some o ->
  exists o', view (perform (Edit r e) w) i = Some o' /\ edited_in (fun s => got w i s = Some r) e o o'.
Proof. intros w r e i o R. exact (view_edit w r e i o (sound_reached w R)). Qed.
Print Assumptions C66_edit.

(** So an object that has the map nowhere is as it was: in particular one whose map was replaced by another. *)
Theorem C66_edit_elsewhere : forall w r e i, reached w -> (forall s, got w i s <> Some r) -> view (perform (Edit r e) w) i = view w i.
Proof. intros w r e i R. exact (view_edit_elsewhere w r e i (sound_reached w R)). Qed.
Print Assumptions C66_edit_elsewhere.

(** A setter makes the given map the object's own, with what is in it; no other getter of this or another object answers differently. *)
Theorem C66_set : forall w i s r o c, reached w ->
  view w i = Some o -> nth_error (maps w) r = Some c -> settable s o = true -> cell_fits s c = true ->
  let w' := perform (SetMap i s (Some r)) w in
  view w' i = Some (set_map s c o) /\ got w' i s = Some r /\
  (forall j t, j <> i \/ t <> s -> got w' j t = got w j t) /\ (forall j, j <> i -> view w' j = view w j) /\ maps w' = maps w.
Proof. intros w i s r o c R. exact (view_set_map w i s r o c (sound_reached w R)). Qed.
Print Assumptions C66_set.

(** A map that is unset, or set to nil, is replaced by an empty one that no getter has returned before. *)
Theorem C66_unset : forall w i s o, reached w -> view w i = Some o -> settable s o = true ->
  forall call, In call [UnsetMap i s; SetMap i s None] ->
  let w' := perform call w in
  view w' i = Some (set_map s (blank_cell s) o) /\
  (exists r, got w' i s = Some r /\ forall j t, got w j t <> Some r) /\
  (forall j t, j <> i \/ t <> s -> got w' j t = got w j t) /\ (forall j, j <> i -> view w' j = view w j).
Proof.
  intros w i s o R V B c I. assert (E : perform c w = unset_map i s w) by (destruct I as [<-|[<-|[]]]; reflexivity). rewrite E.
  pose proof (sound_reached w R) as S. destruct (view_unset w i s o S V B) as [A1 [A2 [A3 [A4 _]]]]. cbv zeta.
  split; [exact A1|]. split; [|split; assumption]. exists (List.length (maps w)). split; [exact A2|].
  intros j t C. apply (got_old w j t _ S) in C. lia.
Qed.
Print Assumptions C66_unset.

(** What [set_map] means for the getters: the one that was set answers what was given, the others what they did. *)
Theorem C66_set_map : forall s c o c0, cell_fits s c = true -> get_map s o = Some c0 ->
  get_map s (set_map s c o) = Some c /\ (forall t, s <> t -> get_map t (set_map s c o) = get_map t o) /\ strip (set_map s c o) = strip o.
Proof. intros s c o c0 F G. split; [exact (get_set_same s c o c0 F G)|]. split; [intros t; apply get_set_other|apply strip_set]. Qed.
Print Assumptions C66_set_map.

(** An object is its maps and the rest: [strip] keeps all that is no map. *)
Theorem C66_object : forall o o', strip o = strip o' -> (forall s, get_map s o = get_map s o') -> o = o'.
Proof. exact obj_ext. Qed.
Print Assumptions C66_object.

(** What an edit does to what is in a map is what the methods of the map do, for any number of calls (the keys of an AnyMap are proper: C14). *)
Theorem C66_map_methods :
  (forall (V : Type) (ops : list (op string V)) m m', sm_reachable m -> sm_exec m ops = Ok m' ->
     fold_left (fun m o => map_edit String.eqb o m) ops (mkMap (entries m) (outOrder m)) = mkMap (entries m') (outOrder m')) /\
  (forall (V : Type) (ops : list (op gkey V)) m m', am_reachable m -> Forall op_proper ops -> am_exec m ops = Ok m' ->
     fold_left (fun m o => map_edit gkey_eqb o m) ops (mkMap (entries m) (outOrder m)) = mkMap (entries m') (outOrder m')).
Proof. split; [exact (@string_edits)|exact (@any_edits)]. Qed.
Print Assumptions C66_map_methods.
Example C66_map_case : exists m m', sm_reachable m /\ outOrder m = true /\
  sm_exec m [OPut "b" 2; OReplaceOrPut "a" 3; ODelete "c"; OSerializeOrdered false; OPut "d" 4] = Ok m' /\ entries m' = [("a", 3); ("b", 2); ("d", 4)] /\ outOrder m' = false.
Proof.
  eexists. eexists. split; [exists [OPut "a" 0; OPut "c" 1]; vm_compute; reflexivity|]. split; [reflexivity|].
  split; [vm_compute; reflexivity|]. split; vm_compute; reflexivity.
Qed.

(** A document is loaded; a type is put into its map of types by way of the getter, and a title is set; it is written with both.  Then its types are unset, and the
    old map is edited: nothing changes. *)
Definition loaded : api := match api_unmarshal (m_ [(s_ "title", s_ "t"); (s_ "types", m_ [(s_ "A", s_ "string")])]) new_api with Ok a => a | _ => new_api end.
Definition the_types (w : memory) : nat := match got w 0 STypes with Some r => r | None => 0 end.
Definition after_put : memory :=
  let w := performs [Make (OApi loaded)] no_memory in
  performs [Edit (the_types w) (ETypes (OPut "B" (new_type TyInteger))); SetPlain 0 (PApi (ASetTitle "u"))] w.
Definition written (w : memory) : option (res node) := match view w 0 with Some (OApi a) => Some (api_marshal a) | _ => None end.

Example C66_case :
  got after_put 0 STypes = Some 7 /\
  written after_put = Some (Ok (m_ [(s_ "title", s_ "u"); (s_ "types", m_ [(s_ "A", s_ "string"); (s_ "B", s_ "integer")])])) /\
  (let w := performs [UnsetMap 0 STypes; Edit 7 (ETypes (OPut "C" (new_type TyInteger)))] after_put in
   got w 0 STypes = Some 13 /\ written w = Some (Ok (m_ [(s_ "title", s_ "u")]))).
Proof. vm_compute. repeat split. Qed.

(** ** C67: maps are shared only where the program shares them *)

(** If no setter was given a map, no two getters, of one object or two, return the same map: readers, constructors and Unset methods make new ones. *)
Theorem C67_own_maps : forall cs i j s t r, Forall (fun c => ~ gives_map c) cs ->
  got (performs cs no_memory) i s = Some r -> got (performs cs no_memory) j t = Some r -> i = j /\ s = t.
Proof. exact own_maps. Qed.
Print Assumptions C67_own_maps.

(** A program that makes objects, edits their maps through the getters, and gives setters new maps, finds in each object what it would find if objects were values:
    nothing it does to one object changes another. *)
Theorem C67_values : forall us i, view (by_reference us no_memory) i = nth_error (by_value us []) i.
Proof. exact values_enough. Qed.
Print Assumptions C67_values.

(** A map set in two objects is one map: an edit through either shows in both. *)
Theorem C67_shared : forall w i j s t r e o p, reached w -> got w i s = Some r -> got w j t = Some r -> view w i = Some o -> view w j = Some p ->
  exists o' p' c, view (perform (Edit r e) w) i = Some o' /\ view (perform (Edit r e) w) j = Some p' /\
    get_map s o = Some c /\ get_map t p = Some c /\ get_map s o' = Some (edit_cell e c) /\ get_map t p' = Some (edit_cell e c).
Proof.
  intros w i j s t r e o p R G1 G2 V1 V2. pose proof (sound_reached w R) as S.
  destruct (view_edit w r e i o S V1) as [o' [W1 [_ E1]]]. destruct (view_edit w r e j p S V2) as [p' [W2 [_ E2]]].
  destruct (got_view w i s r S G1) as [o1 [c [X1 [M1 H1]]]]. destruct (got_view w j t r S G2) as [p1 [c' [X2 [M2 H2]]]].
  rewrite V1 in X1. injection X1 as <-. rewrite V2 in X2. injection X2 as <-. rewrite M1 in M2. injection M2 as <-.
  exists o', p', c. rewrite (proj1 (E1 s) G1), (proj1 (E2 t) G2), H1, H2. repeat split; assumption.
Qed.
Print Assumptions C67_shared.

(** One map of uses in a document and a library. *)
Definition sharing : memory :=
  performs [Make (OApi loaded); Make (OLib new_library); MakeMap (CStrings (mkMap [("k", "f")] true)); SetMap 0 SUses (Some 26); SetMap 1 SUses (Some 26);
            Edit 26 (EStrings (OPut "l" "g"))] no_memory.
Example C67_case_shared :
  got sharing 0 SUses = got sharing 1 SUses /\
  option_map (get_map SUses) (view sharing 0) = Some (Some (CStrings (mkMap [("k", "f"); ("l", "g")] true))) /\
  option_map (get_map SUses) (view sharing 1) = Some (Some (CStrings (mkMap [("k", "f"); ("l", "g")] true))).
Proof. vm_compute. repeat split. Qed.

(** Two new types; annotations are set in one and edited there; the other has none. *)
Definition apart : list use :=
  [UMake (OType (new_type TyString)); UMake (OType (new_type TyString)); USet 0 (PType (TSetAnnotations (Some (mkMap [("a", anew)] true))));
   UEdit 0 SAnnotations (EAnns (OPut "b" anew)); UEdit 1 SExtra (EExtra (OPut (KStr "x") (GStr "y")))].
Example C67_case :
  option_map (get_map SAnnotations) (view (by_reference apart no_memory) 0) = Some (Some (CAnns (mkMap [("a", anew); ("b", anew)] true))) /\
  option_map (get_map SAnnotations) (view (by_reference apart no_memory) 1) = Some (Some (CAnns anew)) /\
  option_map (get_map SExtra) (view (by_reference apart no_memory) 1) = Some (Some (CExtra (mkMap [(KStr "x", GStr "y")] true))).
Proof. vm_compute. repeat split. Qed.
