(** Property C75: what is put into the maps that getters return is saved. *)
From Coq Require Import SpecFloat.
From Verif Require Import Base Num OMap OMapSpec Keys Yaml Values Assign Formats Meta Out Xml Example DataType Marshal Doc Api Library
  AssignProofs TypeFacts Fields FacetSpec Segs ExProofs Same ExRound WriteSpec RoundSpec RoundProofs Stable ApiFields ApiSpec ApiProofs LibProofs ApiRoundSpec Parts ApiOrder LibOrder
  ApiReadRound LibReadRound Setters SetterSpec EditSpec EditSave Live LiveSpec LiveProofs LiveSaveSpec LiveSave.

(** Some float conversion, for the examples. *)
#[local] Instance toy : FloatIO := {
  float_of := fun _ s => if String.eqb s "0.5" then Some (S754_finite false 1 (-1)) else None;
  float_text := fun _ => (TFloat, "0.5")
}.

Local Notation s_ := str_node.
Local Notation m_ := (Map TMap).

(** ** C75, in full *)

(** New or loaded. *)
Definition from_outside (F : FloatIO) (o : obj) : Prop :=
  match o with
  | OApi a => a = new_api \/ exists n, api_unmarshal n new_api = Ok a
  | OLib l => l = new_library \/ exists n, lib_unmarshal n new_library = Ok l
  | OType t => (exists k, k <> TyInclude /\ t = new_type k) \/ exists n, hat n = Ok t
  | ODoc _ | OEx _ => True
  end.
Definition makes (F : FloatIO) (c : call) : Prop := match c with Make o => from_outside F o | _ => True end.

(** A program makes and loads objects, calls their setters, edits the maps that their getters return, and uses maps in several objects: at any time, what it saves
    an object as can be loaded, and all getters of the loaded object answer as those of the saved one do at that time. *)
Definition edits_survive (F : FloatIO) : Prop :=
  forall cs i o, Forall (makes F) cs -> view (performs cs no_memory) i = Some o -> survives o.

(** The code does not do that: a facet definition is put into the map of a new type, and what the type is saved as is rejected. *)
Theorem C75_refuted (F : FloatIO) : ~ edits_survive F.
Proof.
  intros H.
  specialize (H [Make (OType (new_type TyString)); Edit 11 (EFacets (OPut "f" (mkMap [("x", new_type TyString)] false)))] 0).
  assert (M : Forall (makes F) [Make (OType (new_type TyString)); Edit 11 (EFacets (OPut "f" (mkMap [("x", new_type TyString)] false)))]).
  { constructor; [|constructor; [exact I|constructor]]. left. exists TyString. split; [discriminate|reflexivity]. }
  destruct (H _ M eq_refl) as [n [t [W [R _]]]].
  vm_compute in W. injection W as <-. vm_compute in R. discriminate R.
Qed.
Print Assumptions C75_refuted.

(** ** What holds *)

(** A program that keeps to [calls_save] (see LiveSaveSpec.v) can save every object at any time, and what is saved can be loaded with the same answers. *)
Theorem C75_history_partial (F : FloatIO) cs i o : calls_save cs no_memory -> view (performs cs no_memory) i = Some o -> survives o.
Proof. exact (all_survive cs i o). Qed.
Print Assumptions C75_history_partial.

(** Objects that a program may make: new ones, and those loaded from documents as in C50, C41 and C54. *)
Theorem C75_made_partial (F : FloatIO) :
  obj_returns (OApi new_api) /\ obj_returns (OLib new_library) /\
  (forall k, k <> TyUnion -> obj_returns (OType (new_type k))) /\
  (forall t l a, api_unmarshal (Map t l) new_api = Ok a ->
     Forall (fun p => is_string (fst p) = true /\ is_annotation_key (fst p) = false /\ named_key "documentation" p = false) l ->
     Forall (fun e => settled (snd e)) (ents (a_types a)) -> obj_returns (OApi a)) /\
  (forall t l a, lib_unmarshal (Map t l) new_library = Ok a ->
     Forall (fun p => is_string (fst p) = true /\ is_annotation_key (fst p) = false /\ text_key "annotationTypes" p = false) l ->
     Forall (fun e => settled (snd e)) (ents (l_types a)) -> obj_returns (OLib a)) /\
  (forall n d, hat n = Ok d -> settled d -> obj_returns (OType d)).
Proof.
  split; [|split; [|split; [|split; [|split]]]].
  - apply (api_read_returns [] new_api); try (apply Forall_nil). apply (api_read_iff TMap). reflexivity.
  - apply (lib_read_returns [] new_library); try (apply Forall_nil); [|reflexivity]. apply (lib_read_iff TMap [] new_library); [constructor|reflexivity].
  - intros k K. assert (E : new_type k = set_schema (d_type (new_type k)) (new_type k)) by (destruct k; reflexivity). cbn [obj_returns]. rewrite E.
    apply new_returns. intros K'. destruct k; try (apply named_kind_of; reflexivity); try (destruct (K eq_refl)). destruct (K' eq_refl).
  - intros t l a H Hl Ht. apply api_read_iff in H as [_ H]. apply (api_read_returns l a H); try assumption; (eapply Forall_impl; [|exact Hl]; cbn; tauto).
  - intros t l a H Hl Ht. assert (Hn : Forall (fun p => text_key "annotationTypes" p = false) l) by (eapply Forall_impl; [|exact Hl]; cbn; tauto).
    assert (H' := H). apply (lib_read_iff t l a Hn) in H as [_ H]. apply (lib_read_returns l a H); try assumption; (eapply Forall_impl; [|exact Hl]; cbn; tauto).
  - intros n d H S. exact (settled_returns d S n H).
Qed.
Print Assumptions C75_made_partial.

(** A document is loaded and a library made; the document's uses are given to the library, and edited through the library; the document's types, resources, annotations and
    extra facets are edited, and a type made elsewhere is put among them; then all three are saved.  Facet definitions are put into a map that is no longer
    to be written in order. *)
Definition first_doc : list (node * node) :=
  [(s_ "title", s_ "T"); (s_ "uses", m_ [(s_ "k", s_ "f")]); (s_ "types", m_ [(s_ "A", s_ "integer")]); (s_ "/r", s_ "x"); (s_ "y", s_ "z")].
Definition first_api : api := match api_unmarshal (m_ first_doc) new_api with Ok a => a | _ => new_api end.
Definition facet_map : amap string dtype := mkMap [("x", new_type TyString)] false.
Definition program : list call :=
  [Make (OApi first_api); Make (OLib new_library); Make (OType (new_type TyString));
   SetMap 1 SUses (Some 0); Edit 0 (EStrings (OPut "l" "g")); Edit 0 (EStrings (ODelete "k"));
   Edit 7 (ETypes (OReplaceOrPut "A" (new_type TyNumber))); Edit 7 (ETypes (OPut "B" (new_type TyBool)));
   Edit 6 (EUntyped (OPut "/s" (GStr "t"))); Edit 8 (EAnns (OPut "(a)" (mkMap [("b", GStr "c")] false)));
   Edit 9 (EExtra (OPutIfNotNil (KStr "e") (Some (GStr "v")))); Edit 9 (EExtra (ODelete (KStr "y")));
   Edit 37 (EFacets (OSerializeOrdered false)); Edit 37 (EFacets (OPut "f" facet_map)); SetPlain 2 (PType (TSetDisplayName "n"))].

Ltac one_call :=
  match goal with
  | |- call_saves _ (Edit _ _) =>
    intros i s o k c G V K M; pose proof (view_bound _ _ _ V) as L; vm_compute in L;
    assert (E : i = 0 \/ i = 1 \/ i = 2) by lia; clear L; destruct E as [E|[E|E]]; subst i; destruct s; vm_compute in G; try discriminate G;
    vm_compute in V; injection V as <-; injection K as <-; vm_compute in M; injection M as <-; cbn [edit_saves op_saves unfolded]
  | |- _ => cbn [call_saves]
  end.
Ltac all_calls := match goal with |- True => exact I | |- _ => split; [one_call|all_calls] end.

Example C75_case : calls_save program no_memory /\
  (exists a n a', view (performs program no_memory) 0 = Some (OApi a) /\ api_marshal a = Ok n /\ api_unmarshal n new_api = Ok a' /\
     ents (a_uses a') = [("l", "g")] /\ map fst (ents (a_types a')) = ["A"; "B"] /\ map fst (ents (a_resources a')) = ["/r"; "/s"] /\
     map fst (ents (a_annotations a')) = ["(a)"] /\ map fst (ents (a_extra a')) = [KStr "e"]) /\
  (exists l n l', view (performs program no_memory) 1 = Some (OLib l) /\ lib_marshal l = Ok n /\ lib_unmarshal n new_library = Ok l' /\ ents (l_uses l') = [("l", "g")]) /\
  (exists d n d', view (performs program no_memory) 2 = Some (OType d) /\ to_yaml d = Ok n /\ hat n = Ok d' /\ getf FDisplay d' = Some (VOptStr (Some "n")) /\
     exists m, getf FFacets d' = Some (VFacets m) /\ map fst (ents m) = ["f"]).
Proof.
  split; [|split; [|split]].
  2:{ do 3 eexists. split; [vm_compute; reflexivity|]. split; [vm_compute; reflexivity|]. split; [vm_compute; reflexivity|]. repeat split. }
  2:{ do 3 eexists. split; [vm_compute; reflexivity|]. split; [vm_compute; reflexivity|]. split; [vm_compute; reflexivity|]. repeat split. }
  2:{ do 3 eexists. split; [vm_compute; reflexivity|]. split; [vm_compute; reflexivity|]. split; [vm_compute; reflexivity|]. split; [reflexivity|]. eexists. split; reflexivity. }
  assert (Ra : obj_returns (OApi first_api)).
  { destruct (C75_made_partial toy) as [_ [_ [_ [La _]]]]. apply (La TMap first_doc); [reflexivity|repeat constructor|]. constructor; [|constructor].
    constructor; cbn; try (intros; discriminate); try tauto; try (intros m E; injection E as <-; reflexivity).
    - intros m s e E. injection E as <-. intros [].
    - intros f z [E|E]; destruct f; cbn in E; try discriminate E; injection E as <-; lia.
    - intros f x E. destruct f; discriminate E.
    - intros _. apply named_kind_of. reflexivity. }
  destruct (C75_made_partial toy) as [_ [Rl [Rt _]]].
  cbn [calls_save program].
  all_calls.
  - exact Ra.
  - exact Rl.
  - apply Rt. discriminate.
  - intros o k c V K M. vm_compute in V. injection V as <-. injection K as <-. vm_compute in M. injection M as <-.
    split; [repeat constructor|]. split; [intros a v _; exact I|reflexivity].
  - split; [exact I|reflexivity].
  - split; [exact I|reflexivity].
  - exact I.
  - exact I.
  - split; [apply (Rt TyNumber); discriminate|reflexivity].
  - split; [apply (Rt TyBool); discriminate|reflexivity].
  - split; [|reflexivity]. split; [reflexivity|eexists; reflexivity].
  - split; [|reflexivity]. split; [reflexivity|]. split; [reflexivity|]. split; [repeat constructor; intros []|]. repeat constructor. eexists. reflexivity.
  - split; [|reflexivity]. split; [eexists; split; reflexivity|]. split; [eexists; reflexivity|]. intros q E. injection E as <-.
    intros [C|[C|[C|C]]]; try discriminate C. cbn in C. repeat destruct C as [C|C]; try discriminate C. exact C.
  - exact I.
  - reflexivity.
  - split; [|reflexivity]. split; [reflexivity|]. split; [repeat constructor; intros []|]. intros q t [E|[]]. injection E as <- <-. apply (Rt TyString). discriminate.
  - intros o k V K. vm_compute in V. injection V as <-. injection K as <-. split; [reflexivity|]. split; [apply ret_optstr|exact I].
Qed.

(** ** Why the conditions *)

(** Each of these edits breaks one of the conditions, and what was put is not there when the document is loaded again. *)
Definition after (o : obj) (r : nat) (e : edit) : option obj := view (performs [Make o; Edit r e] no_memory) 0.
Definition reload (o : option obj) : res obj :=
  match o with
  | Some (OApi a) => do n <- api_marshal a; do a' <- api_unmarshal n new_api; Ok (OApi a')
  | Some (OLib a) => do n <- lib_marshal a; do a' <- lib_unmarshal n new_library; Ok (OLib a')
  | Some (OType t) => do n <- to_yaml t; do t' <- hat n; Ok (OType t')
  | _ => Err
  end.
Example C75_conditions :
  reload (after (OApi new_api) 9 (EExtra (OPut (KStr "title") (GStr "x")))) = Ok (OApi (a_set_title "x" new_api)) /\                (* the name of a section *)
  reload (after (OApi new_api) 6 (EUntyped (OPut "r" (GStr "x")))) = Ok (OApi (a_set_extra (mkMap [(KStr "r", GNode (s_ "x"))] (oord (a_extra new_api))) new_api)) /\
  reload (after (OApi new_api) 8 (EAnns (OPut "a" (mkMap [] false)))) =
    Ok (OApi (a_set_extra (mkMap [(KStr "a", GNode (m_ []))] (oord (a_extra new_api))) new_api)) /\                                 (* no parentheses *)
  reload (after (OApi new_api) 8 (EAnns (OPut "(a)" (mkMap [("x", GStr "y")] true)))) = Err /\                                      (* to be written in order *)
  reload (after (OLib new_library) 4 (EUntyped (OPut "a" (GStr "x")))) = Err.                                                         (* C52 *)
Proof. repeat split. Qed.
