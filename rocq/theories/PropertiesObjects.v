(** Properties C79 and C80: everything got from a document is part of it; those who use documents of their own do not disturb each other. *)
From Coq Require Import SpecFloat.
From Verif Require Import Base Num OMap OMapSpec Keys Yaml Values Assign Formats Meta Out Xml Example DataType Marshal Doc Api Library Setters Live Objects ObjProofs ObjHeap ObjPrograms ObjLoad.

(** Some float conversion, for the examples. *)
#[local] Instance toy : FloatIO := {
  float_of := fun _ s => if String.eqb s "0.5" then Some (S754_finite false 1 (-1)) else None;
  float_text := fun _ => (TFloat, "0.5")
}.

Local Notation s_ := str_node.
Local Notation m_ := (Map TMap).

(** ** C79: calls on what getters lead to *)

(** Every call (a setter of a document, library, definition, example, XML settings or documentation entry; a method of a map) on what a chain of getters leads
    to from [x] is an edit of what is there: the same chain then leads to the edited object; chains that part from it lead to what they led to before; the
    objects on the way have the plain values and the fields and keys they had; and nothing held elsewhere changes. *)
Theorem C79_edit us x ns a t q : Forall once_use us -> once_act a -> holds us x t -> follow ns t = Some q ->
  (exists t', holds (us ++ [Do x ns a]) x t' /\ follow ns t' = Some (act_on a q) /\ (forall ms, forked ns ms -> follow ms t' = follow ms t) /\
     forall l m ms p, ns = l ++ m :: ms -> follow l t = Some p -> exists p', follow l t' = Some p' /\ bare p' = bare p /\ map fst (parts p') = map fst (parts p)) /\
  forall y t1, y <> x -> holds us y t1 -> holds (us ++ [Do x ns a]) y t1.
Proof. exact (edit_held us x ns a t q). Qed.
Print Assumptions C79_edit.

(** Where there is nothing, nothing changes. *)
Theorem C79_nowhere us x ns a t : Forall once_use us -> once_act a -> holds us x t -> follow ns t = None -> forall y t1, holds us y t1 -> holds (us ++ [Do x ns a]) y t1.
Proof. exact (nowhere_held us x ns a t). Qed.
Print Assumptions C79_nowhere.

(** What is read or made is held; what is held elsewhere stays. *)
Theorem C79_open us x t : Forall once_use us -> once t -> holds (us ++ [Open x t]) x t /\ forall y t1, y <> x -> holds us y t1 -> holds (us ++ [Open x t]) y t1.
Proof. exact (open_held us x t). Qed.
Print Assumptions C79_open.

(** At every moment each variable holds something (and no map in it has a key twice). *)
Theorem C79_always us x : Forall once_use us -> snd (memory us) x <> None -> exists t, holds us x t /\ once t.
Proof. exact (always_holds us x). Qed.
Print Assumptions C79_always.

(** What is saved is what is held. *)
Theorem C79_saved {F : FloatIO} us x t : holds us x t -> exists r, snd (memory us) x = Some r /\ h_saved (fst (memory us)) r = saved t.
Proof. exact (saved_held us x t). Qed.
Print Assumptions C79_saved.

(** An object that the program got before the call is still the one that the getters lead to, unless they lead there through the object called. *)
Theorem C79_same_objects us x ns a : Forall once_use us -> forall y p ms, snd (memory us) y = Some p -> (y = x -> ~ exists m l, ms = ns ++ m :: l) ->
  h_follow (fst (memory (us ++ [Do x ns a]))) ms p = h_follow (fst (memory us)) ms p.
Proof. exact (held us x ns a). Qed.
Print Assumptions C79_same_objects.

(** Different chains of getters lead to different objects. *)
Theorem C79_one_chain us : Forall once_use us ->
  forall x r ns ms i, snd (memory us) x = Some r -> h_follow (fst (memory us)) ns r = Some i -> h_follow (fst (memory us)) ms r = Some i -> ns = ms.
Proof. exact (one_chain us). Qed.
Print Assumptions C79_one_chain.

(** All that is read has each key of a map once, and so has all that is made. *)
Theorem C79_loaded {F : FloatIO} :
  (forall n a, api_unmarshal n new_api = Ok a -> once (ThApi a)) /\ (forall n l, lib_unmarshal n new_library = Ok l -> once (ThLib l)) /\
  (forall n d, hat n = Ok d -> once (ThDef d)) /\ (forall k n e, read_ex k n = Ok e -> once (ThEx e)) /\ (forall d, once (ThDoc d)) /\ (forall x, once (ThXml x)).
Proof. exact (conj api_loaded (conj lib_loaded (conj hat_once (conj (fun k n e H => once_ex e (read_ex_anns k n e H)) (conj once_doc (fun x => once_bare (ThXml x) eq_refl)))))). Qed.
Print Assumptions C79_loaded.
Theorem C79_made : (forall k, once (ThDef (new_type k))) /\ once (ThApi new_api) /\ once (ThLib new_library) /\ once (ThEx new_ex).
Proof. exact (conj new_once new_docs_once). Qed.
Print Assumptions C79_made.

(** A document with an example that has an annotation, XML settings and documentation. *)
Definition document : node :=
  m_ [(s_ "title", s_ "t"); (s_ "documentation", Seq TSeq [m_ [(s_ "title", s_ "d"); (s_ "content", s_ "c")]]);
      (s_ "types", m_ [(s_ "A", m_ [(s_ "type", s_ "string"); (s_ "xml", m_ [(s_ "name", s_ "n")]); (s_ "example", m_ [(s_ "value", s_ "v"); (s_ "(note)", m_ [(s_ "k", s_ "w")])])]);
                       (s_ "B", m_ [(s_ "type", s_ "object"); (s_ "properties", m_ [(s_ "p", m_ [(s_ "type", s_ "array"); (s_ "items", s_ "string")])])])])].
Definition loaded : api := match api_unmarshal document new_api with Ok a => a | _ => new_api end.
Definition to_A : list name := [NField FdTypes; NKey "A"].
Definition to_example : list name := to_A ++ [NField FdExample].
Definition to_note : list name := to_example ++ [NField FdAnnotations; NKey "(note)"].
Definition to_items : list name := [NField FdTypes; NKey "B"; NField FdProperties; NKey "p"; NField FdItems].

Example C79_document_read : api_unmarshal document new_api = Ok loaded.
Proof. vm_compute. reflexivity. Qed.
Example C79_document_once : once (ThApi loaded).
Proof. exact (proj1 C79_loaded document loaded C79_document_read). Qed.

Definition program : list use :=
  [Open 0 (ThApi loaded); Open 1 (ThApi loaded); Do 0 to_example (AcEx (ESetDescription "e")); Do 0 to_note (AcUntyped (OPut "new" (GStr "x")));
   Do 0 (to_A ++ [NField FdXML]) (AcXml (XSetName "m")); Do 0 [NField FdDocumentation; NIndex 0] (AcDoc (DSetTitle "D")); Do 0 to_items (AcDef (TSetDescription "i"))].
Example C79_program_once : Forall once_use program.
Proof.
  unfold program. repeat apply Forall_cons; try apply Forall_nil; cbn [once_use]; try exact C79_document_once; unfold once_act; cbn [change_of ex_sets type_sets]; intros n t [].
Qed.
(** All of it is in the first document, at the end; nothing of it in the second. *)
Example C79_program_memory :
  match snd (memory program) 0 with
  | Some r =>
    match whole (fst (memory program)) r with
    | Some t =>
      (match follow to_example t with Some (ThEx e) => ex_descr e | _ => None end, match follow to_note t with Some (ThUntyped m) => map fst (ents m) | _ => [] end,
       match follow (to_A ++ [NField FdXML]) t with Some (ThXml x) => xml_name x | _ => None end, match follow [NField FdDocumentation; NIndex 0] t with Some (ThDoc d) => doc_title d | _ => "" end,
       match follow to_items t with Some (ThDef (TExt _ x _ _ _)) => x_descr x | _ => None end)
    | None => (None, [], None, "", None)
    end
  | None => (None, [], None, "", None)
  end = (Some "e", ["k"; "new"], Some "m", "D", Some "i").
Proof. vm_compute. reflexivity. Qed.
Example C79_program_other : match snd (memory program) 1 with Some r => whole (fst (memory program)) r | None => None end = Some (ThApi loaded).
Proof. vm_compute. reflexivity. Qed.
(** So what is saved is another document than the one that was read. *)
Example C79_program_saved :
  match snd (memory program) 0, snd (memory program) 1 with
  | Some r, Some r' => match h_saved (fst (memory program)) r, h_saved (fst (memory program)) r' with Some (Ok n), Some (Ok n') => n <> n' | _, _ => False end
  | _, _ => False
  end.
Proof. vm_compute. discriminate. Qed.
(** The hypotheses of C79_edit, with a chain of six getters. *)
Definition then_held : thing := match values program 0 with Some t => t | None => ThApi new_api end.
Example C79_edit_example : holds program 0 then_held /\ exists q, follow to_note then_held = Some q.
Proof.
  split; [apply (holds_values program 0 then_held C79_program_once); vm_compute; reflexivity|]. exists (match follow to_note then_held with Some q => q | None => ThApi new_api end). vm_compute. reflexivity.
Qed.

(** ** C80: those who use their own *)

(** The variables in [P] are those of one goroutine; [us] is any interleaving of what all of them do.  What the goroutine then has is what it would have if it
    had run alone. *)
Theorem C80_alone P us x t : Forall once_use us -> P x = true -> holds us x t <-> holds (own_calls P us) x t.
Proof. exact (own_holds P us x t). Qed.
Print Assumptions C80_alone.

(** Nobody writes to an object that another may look at: there is no race. *)
Theorem C80_no_race us u y i : Forall once_use us -> y <> var_of u -> reaches (memory us) y i -> nth_error (fst (memory (us ++ [u]))) i = nth_error (fst (memory us)) i.
Proof. exact (no_race us u y i). Qed.
Print Assumptions C80_no_race.

(** No object is reached from two variables. *)
Theorem C80_no_sharing us : Forall once_use us -> forall x y i, reaches (memory us) x i -> reaches (memory us) y i -> x = y.
Proof. exact (one_owner us). Qed.
Print Assumptions C80_no_sharing.

(** Two goroutines that load the same document and edit the same places. *)
Definition both : list use :=
  [Open 0 (ThApi loaded); Open 1 (ThApi loaded); Do 0 to_example (AcEx (ESetDescription "e")); Do 1 to_example (AcEx (ESetDescription "f"));
   Do 1 [NField FdTypes] (AcDefs (ODelete "B")); Do 0 to_items (AcDef (TSetDescription "i"))].
Example C80_both_once : Forall once_use both.
Proof.
  unfold both. repeat apply Forall_cons; try apply Forall_nil; cbn [once_use]; try exact C79_document_once; unfold once_act; cbn [change_of ex_sets type_sets op_names given];
    match goal with |- forall n t, In (n, Some t) [] -> _ => intros n t [] | |- _ => intros t [] end.
Qed.
Example C80_both_alone : List.length (own_calls (Nat.eqb 0) both) = 3 /\ List.length (own_calls (Nat.eqb 1) both) = 3.
Proof. split; reflexivity. Qed.
Example C80_both_same :
  match snd (memory both) 0, snd (memory (own_calls (Nat.eqb 0) both)) 0 with
  | Some r, Some r' => whole (fst (memory both)) r = whole (fst (memory (own_calls (Nat.eqb 0) both))) r' /\ whole (fst (memory both)) r <> None
  | _, _ => False
  end.
Proof. vm_compute. split; [reflexivity|discriminate]. Qed.
Example C80_reaches : exists i, reaches (memory both) 1 i /\ i < List.length (fst (memory both)) /\ target (memory both) (Do 0 to_example (AcEx EUnsetDescription)) <> Some i.
Proof. exists (match snd (memory both) 1 with Some r => r | None => 0 end). split; [exists (match snd (memory both) 1 with Some r => r | None => 0 end), []; vm_compute; split; reflexivity|]. split; [vm_compute; repeat constructor|vm_compute; discriminate]. Qed.
