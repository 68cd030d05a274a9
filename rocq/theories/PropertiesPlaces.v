(** Property C81: a call changes what is saved only where it is made. *)
From Coq Require Import SpecFloat.
From Verif Require Import Base Num OMap OMapSpec Keys Yaml Values Assign Formats Meta Out Xml Example DataType Marshal Doc Api Library Setters Live Objects ObjProofs ObjHeap ObjPrograms ObjLoad Places PlaceProofs PropertiesObjects.

Local Notation s_ := str_node.
Local Notation m_ := (Map TMap).

(** ** What is called the same but for some entries *)

(** Without the entries of [P] the lists are equal: nothing else is added, lost, moved or changed. *)
Lemma others_equal {K V} (P : K -> Prop) (keep : K * V -> bool) l l' : (forall e, P (fst e) -> keep e = false) -> others P l l' -> filter keep l = filter keep l'.
Proof.
  intros H O. induction O as [|e l l' O IH|e l l' Pe O IH|e l l' Pe O IH]; cbn [filter].
  - reflexivity.
  - rewrite IH. reflexivity.
  - rewrite (H e Pe). exact IH.
  - rewrite (H e Pe). exact IH.
Qed.
Theorem C81_others {K V} (P : K -> Prop) (keep : K * V -> bool) l l' : (forall e, P (fst e) -> keep e = false) -> others P l l' -> filter keep l = filter keep l'.
Proof. exact (others_equal P keep l l'). Qed.
Print Assumptions C81_others.
(** If there are no such entries, nothing differs. *)
Lemma others_none {K V} (P : K -> Prop) (l l' : list (K * V)) : (forall k, ~ P k) -> others P l l' -> l = l'.
Proof. intros H O. induction O as [|e l l' O IH|e l l' Pe O IH|e l l' Pe O IH]; [reflexivity|rewrite IH; reflexivity|destruct (H _ Pe)|destruct (H _ Pe)]. Qed.
Lemma nowhere_differ P p : (forall k, ~ P k) -> forall n n', differ P p n n' -> n = n'.
Proof.
  intros H. induction p as [|k0 p0 IH]; intros n n' D;
    inversion D as [p1 m E1 E2 E3|t l l' O E1 E2 E3|t l l' O E1 E2 E3|m l' N N' O E1 E2 E3|l m N N' O E1 E2 E3|t s t' s' T E1 E2 E3|k p1 t l l' O E1 E2 E3|k p1 t l l' O E1 E2 E3]; subst; try reflexivity.
  - rewrite (others_none _ l l' H O). reflexivity.
  - rewrite (others_none _ l l' H O). reflexivity.
  - apply (others_none _ _ _ H) in O. subst l'. destruct (N' n eq_refl).
  - apply (others_none _ _ _ H) in O. subst l. destruct (N' n' eq_refl).
  - destruct (H _ T).
  - replace l' with l; [reflexivity|]. clear D. induction O as [|[a b] [a' b'] l l' [E V] O IHO]; [reflexivity|]. cbn [fst snd] in *. subst a'. rewrite IHO.
    destruct V as [->|[_ V]]; [reflexivity|]. rewrite (IH _ _ V). reflexivity.
  - replace l' with l; [reflexivity|]. clear D. induction O as [|[a b] [a' b'] l l' [E V] O IHO]; [reflexivity|]. cbn [fst snd] in *. subst a'. rewrite IHO.
    destruct V as [->|[_ V]]; [reflexivity|]. rewrite (IH _ _ V). reflexivity.
Qed.
Theorem C81_nowhere P p n n' : (forall k, ~ P k) -> differ P p n n' -> n = n'.
Proof. exact (fun H => nowhere_differ P p H n n'). Qed.
Print Assumptions C81_nowhere.

(** ** One call *)

(** What is saved before and after a call is the same but for the place of the call.  Floats are not written as quoted strings. *)
Lemma edit_saved {F : FloatIO} (tame : forall x, fst (float_text x) <> TStr) ns a t n n' :
  once t -> saved t = Some (Ok n) -> saved (edit_at ns a t) = Some (Ok n') -> same_but (place ns a t) n n'.
Proof.
  intros H E E'. pose proof (edit_same_but tame ns a t H) as G. unfold good in G.
  assert (S : forall u r, saved u = Some r -> node_of u = Some r) by (intros u r; destruct u; cbn; congruence).
  rewrite (S _ _ E), (S _ _ E') in G. unfold both_same in G. unfold same_but. destruct (place ns a t) as [|p P]; [exact I|]. exact (G n n' eq_refl eq_refl).
Qed.
Theorem C81_edit {F : FloatIO} ns a t n n' : (forall x, fst (float_text x) <> TStr) -> once t ->
  saved t = Some (Ok n) -> saved (edit_at ns a t) = Some (Ok n') -> same_but (place ns a t) n n'.
Proof. exact (fun tame => edit_saved tame ns a t n n'). Qed.
Print Assumptions C81_edit.

(** ** Programs *)

(** In any program, at any moment: a call on what getters lead to from [x] changes what [x] is saved as only at its place, and what nothing else is saved as. *)
Lemma program_saved {F : FloatIO} (tame : forall x, fst (float_text x) <> TStr) us x ns a t r r' : Forall once_use us -> once_act a -> holds us x t ->
  snd (memory us) x = Some r -> snd (memory (us ++ [Do x ns a])) x = Some r' ->
  (forall n n', h_saved (fst (memory us)) r = Some (Ok n) -> h_saved (fst (memory (us ++ [Do x ns a]))) r' = Some (Ok n') -> same_but (place ns a t) n n') /\
  forall y p p', y <> x -> snd (memory us) y = Some p -> snd (memory (us ++ [Do x ns a])) y = Some p' ->
    h_saved (fst (memory (us ++ [Do x ns a]))) p' = h_saved (fst (memory us)) p.
Proof.
  intros H Ha Ht Er Er'. assert (H' : Forall once_use (us ++ [Do x ns a])) by (apply Forall_app; split; [exact H|constructor; [exact Ha|constructor]]).
  pose proof (proj1 (holds_values us x t H) Ht) as V.
  assert (St : forall y, values (us ++ [Do x ns a]) y = bind_var x (edit_at ns a t) (values us) y).
  { intros y. unfold values. rewrite fold_left_app. fold (values us). cbn [fold_left step]. rewrite V. reflexivity. }
  split.
  - intros n n' E E'. assert (V' : values (us ++ [Do x ns a]) x = Some (edit_at ns a t)) by (rewrite St; unfold bind_var; rewrite Nat.eqb_refl; reflexivity).
    destruct (saved_held us x t Ht) as [q [Eq S]]. destruct (saved_held _ x _ (proj2 (holds_values _ x _ H') V')) as [q' [Eq' S']].
    rewrite Er in Eq. injection Eq as <-. rewrite Er' in Eq'. injection Eq' as <-. rewrite S in E. rewrite S' in E'.
    exact (edit_saved tame ns a t n n' (held_once us x t H Ht) E E').
  - intros y p p' N Ep Ep'. destruct (values us y) as [t1|] eqn:V1; [|apply (same_vars us H) in V1; congruence].
    assert (V1' : values (us ++ [Do x ns a]) y = Some t1). { rewrite St. unfold bind_var. destruct (Nat.eqb_spec y x); [contradiction|exact V1]. }
    destruct (saved_held us y t1 (proj2 (holds_values us y t1 H) V1)) as [q [Eq S]]. destruct (saved_held _ y t1 (proj2 (holds_values _ y t1 H') V1')) as [q' [Eq' S']]. congruence.
Qed.
Theorem C81_program {F : FloatIO} us x ns a t r r' : (forall x, fst (float_text x) <> TStr) -> Forall once_use us -> once_act a -> holds us x t ->
  snd (memory us) x = Some r -> snd (memory (us ++ [Do x ns a])) x = Some r' ->
  (forall n n', h_saved (fst (memory us)) r = Some (Ok n) -> h_saved (fst (memory (us ++ [Do x ns a]))) r' = Some (Ok n') -> same_but (place ns a t) n n') /\
  forall y p p', y <> x -> snd (memory us) y = Some p -> snd (memory (us ++ [Do x ns a])) y = Some p' ->
    h_saved (fst (memory (us ++ [Do x ns a]))) p' = h_saved (fst (memory us)) p.
Proof. exact (fun tame => program_saved tame us x ns a t r r'). Qed.
Print Assumptions C81_program.

(** ** Cases *)

#[local] Existing Instance toy.
Example C81_tame : forall x, fst (@float_text toy x) <> TStr.
Proof. intros x. cbn. discriminate. Qed.

(** Five getters down, in the document of C79: the definition of the items was saved as its type, and is now saved with the description; the rest is the same. *)
Definition set_items : act := AcDef (TSetDescription "i").
Example C81_place : place to_items set_items (ThApi loaded) = Only [s_ "types"; s_ "B"; s_ "properties"; s_ "p"; s_ "items"] (eq (s_ "description")).
Proof. vm_compute. reflexivity. Qed.
Definition node_in (us : list use) (x : nat) : node :=
  match snd (memory us) x with Some r => match h_saved (fst (memory us)) r with Some (Ok n) => n | _ => null_node end | None => null_node end.
Fixpoint dig (ks : list string) (n : node) : option node :=
  match ks, n with
  | [], _ => Some n
  | k :: ks, Map _ l => match find (fun e => match fst e with Scal TStr s => String.eqb s k | _ => false end) l with Some (_, v) => dig ks v | None => None end
  | _, _ => None
  end.
Definition opened : list use := [Open 0 (ThApi loaded)].
Example C81_opened : Forall once_use opened /\ once_act set_items /\ holds opened 0 (ThApi loaded).
Proof.
  split; [repeat constructor; exact C79_document_once|]. split; [unfold once_act, set_items; cbn [change_of type_sets]; intros n t []|].
  apply (holds_values opened 0 (ThApi loaded)); [repeat constructor; exact C79_document_once|]. reflexivity.
Qed.
Example C81_longer :
  dig ["types"; "B"; "properties"; "p"; "items"] (node_in opened 0) = Some (s_ "string") /\
  dig ["types"; "B"; "properties"; "p"; "items"] (node_in (opened ++ [Do 0 to_items set_items]) 0) = Some (m_ [(s_ "description", s_ "i"); (s_ "type", s_ "string")]).
Proof. vm_compute. split; reflexivity. Qed.
(** The theorem, here. *)
Example C81_here :
  differ (eq (s_ "description")) [s_ "types"; s_ "B"; s_ "properties"; s_ "p"; s_ "items"] (node_in opened 0) (node_in (opened ++ [Do 0 to_items set_items]) 0).
Proof.
  destruct C81_opened as [H [Ha Ht]]. assert (R : exists r, snd (memory opened) 0 = Some r) by (vm_compute; eexists; reflexivity). destruct R as [r Er].
  assert (R : exists r', snd (memory (opened ++ [Do 0 to_items set_items])) 0 = Some r') by (vm_compute; eexists; reflexivity). destruct R as [r' Er'].
  pose proof (proj1 (C81_program opened 0 to_items set_items (ThApi loaded) r r' C81_tame H Ha Ht Er Er')) as D.
  rewrite C81_place in D. apply D.
  - vm_compute in Er. injection Er as <-. vm_compute. reflexivity.
  - vm_compute in Er'. injection Er' as <-. vm_compute. reflexivity.
Qed.
(** An entry of a map goes; the map was the last thing in its field: the field goes. *)
Example C81_last :
  place [NField FdTypes; NKey "B"; NField FdProperties] (AcDefs (ODelete "p")) (ThApi loaded) = Only [s_ "types"; s_ "B"] (eq (s_ "properties")) /\
  dig ["types"; "B"] (node_in (opened ++ [Do 0 [NField FdTypes; NKey "B"; NField FdProperties] (AcDefs (ODelete "p"))]) 0) = Some (s_ "object").
Proof. vm_compute. split; reflexivity. Qed.
Example C81_entry :
  match place [NField FdTypes] (AcDefs (ODelete "B")) (ThApi loaded) with Only p P => p = [s_ "types"] /\ P (s_ "B") /\ ~ P (s_ "A") | Anywhere => False end.
Proof. vm_compute. repeat split. intros E. discriminate. Qed.
(** An example is one entry of its definition. *)
Example C81_example : place to_example (AcEx (ESetDescription "e")) (ThApi loaded) = Only [s_ "types"; s_ "A"] (eq (s_ "example")).
Proof. vm_compute. reflexivity. Qed.
(** An extra facet called `type` takes the place of the type.  Then anything may be saved. *)
Example C81_called_type :
  let d := ThDef (new_type TyString) in
  place [NField FdExtraFacets] (AcExtra (OPut (KStr "type") (GList []))) d = Anywhere /\
  saved d = Some (Ok (s_ "string")) /\ saved (edit_at [NField FdExtraFacets] (AcExtra (OPut (KStr "type") (GList []))) d) = Some (Ok (Seq TSeq [])).
Proof. vm_compute. repeat split. Qed.
