(** C111: the names of annotations in libraries. *)
From Coq Require Import SpecFloat.
From Verif Require Import Base Num OMap OMapSpec Keys Yaml Values Assign Formats Meta Out Example Doc DataType Marshal Api Library RenameSpec RenameTopSpec PropertiesRename PropertiesRenameTop.

Local Notation s_ := str_node.
Local Notation m_ := (Map TMap).

Section Facts.
  Context {F : FloatIO}.
  Variable r : string -> string.
  Hypothesis om : only_marks r.

  Lemma marks_same s : starts_with "(" s = false -> other_name r s = s.
  Proof. intros H. unfold other_name. destruct (free_name s); [apply om; exact H|reflexivity]. Qed.

  Lemma lib_mark l k v w : is_string k = true -> value k = String "(" w -> lib_assign l (k, v) = do m <- read_annotation v; Ok (l_set_annotations (mput (value k) m (l_annotations l)) l).
  Proof. intros Hs Hv. unfold lib_assign. cbn [fst snd]. rewrite Hs, Hv. reflexivity. Qed.

  Lemma marks_step l e : value (fst e) <> "annotationTypes"%string ->
    lib_assign (rename_library_marks r l) (rename_key (other_name r) (fst e), snd e) = map_result (rename_library_marks r) (lib_assign l e).
  Proof.
    destruct e as [k v]. cbn [fst snd]. intros Na.
    destruct (is_string k && starts_with "(" (value k)) eqn:E.
    - apply Bool.andb_true_iff in E as [Es Em]. destruct (value k) as [|c w] eqn:Ev; [discriminate Em|]. cbn [starts_with] in Em. apply Ascii.eqb_eq in Em. subst c.
      rewrite (lib_mark l k v w Es Ev). unfold rename_key. rewrite Es, Ev.
      assert (S : starts_with "(" (other_name r (String "(" w)) = true) by (unfold other_name; cbn; apply om; reflexivity).
      destruct (other_name r (String "(" w)) as [|c' w'] eqn:Eo; [discriminate S|]. cbn [starts_with] in S. apply Ascii.eqb_eq in S. subst c'.
      rewrite (lib_mark _ _ v w') by reflexivity. cbn [value str_node]. destruct (read_annotation v); cbn [bind map_result]; try reflexivity.
      unfold rename_library_marks, l_set_annotations. cbn -[mput rename_map]. rewrite <- Eo, put_rename by (apply other_inj, om). reflexivity.
    - assert (G : forall l', (do s <- to_scalar k; Ok (l_set_extra (kput s (GNode v) (l_extra (rename_library_marks r l'))) (rename_library_marks r l'))) =
        map_result (rename_library_marks r) (do s <- to_scalar k; Ok (l_set_extra (kput s (GNode v) (l_extra l')) l'))) by (intros l'; destruct (to_scalar k); reflexivity).
      assert (H : lib_assign (rename_library_marks r l) (k, v) = map_result (rename_library_marks r) (lib_assign l (k, v))).
      { apply String.eqb_neq in Na. unfold lib_assign. cbn [fst snd]. rewrite Na. cbn [rename_library_marks l_annotations l_resourceTypes l_types l_traits l_uses l_usage l_securitySchemes].
        repeat match goal with |- (if ?q then bind _ _ else _) = _ => destruct q; [match goal with |- context [bind ?x _] => destruct x; reflexivity end|] end.
        destruct (is_string k); [|apply G]. destruct (value k) as [|c w]; [reflexivity|]. cbn [starts_with andb] in E. rewrite E. apply G. }
      unfold rename_key. destruct (is_string k) eqn:Es; [|exact H]. cbn [andb] in E. rewrite marks_same by exact E.
      destruct k as [t s|t q|t q]; cbn [value] in *.
      + destruct t; try discriminate Es. exact H.
      + destruct t; try discriminate Es. reflexivity.
      + destruct t; try discriminate Es. reflexivity.
  Qed.

  Definition no_types (n : node) : Prop := match n with Map _ es => Forall (fun e => value (fst e) <> "annotationTypes"%string) es | _ => True end.
  Lemma marks_read n : no_types n -> forall l, lib_unmarshal (rename_top r n) (rename_library_marks r l) = map_result (rename_library_marks r) (lib_unmarshal n l).
  Proof.
    unfold lib_unmarshal, rename_top. destruct n as [t s|t es|t es]; cbn [rename_keys map_fold map_result no_types]; try reflexivity.
    induction 1 as [|e es He Hes IH]; intros l; [reflexivity|]. cbn [map fold_res]. rewrite marks_step by exact He. destruct (lib_assign l e) as [l'| |]; cbn [map_result bind]; [apply IH|reflexivity|reflexivity].
  Qed.

  Definition unmarked (k : gkey) : Prop := match k with KStr s => starts_with "(" s = false | _ => True end.
  Lemma unmarked_kept k : unmarked k -> kept r k.
  Proof. destruct k; intros H; try reflexivity. unfold kept. cbn. rewrite marks_same by exact H. reflexivity. Qed.
  Lemma marks_extra_step l e l' : Forall (fun x => unmarked (fst x)) (ents (l_extra l)) -> lib_assign l e = Ok l' -> Forall (fun x => unmarked (fst x)) (ents (l_extra l')).
  Proof.
    intros C H. destruct e as [k v]. unfold lib_assign in H. cbn [fst snd] in H.
    repeat match type of H with (if ?q then bind ?x _ else _) = _ => destruct q; [destruct x; cbn [bind] in H; try discriminate H; injection H as <-; exact C|] end.
    assert (X : forall g, to_scalar k = Ok g -> (is_string k = true -> starts_with "(" (value k) = false) -> Forall (fun x => unmarked (fst x)) (ents (l_extra (l_set_extra (kput g (GNode v) (l_extra l)) l)))).
    { intros g Eg Hk. cbn -[kput]. apply kput_all; [|exact C]. destruct k as [t s|t q|t q]; try discriminate Eg. destruct t; try discriminate Eg; cbn [to_scalar] in Eg;
        try (match type of Eg with bind ?x _ = _ => destruct x; cbn [bind] in Eg; try discriminate Eg end); injection Eg as <-; first [exact I | apply Hk; reflexivity]. }
    destruct (is_string k) eqn:Es.
    - destruct (value k) as [|c w] eqn:Ev; [discriminate H|]. destruct (Ascii.eqb c "(") eqn:Ec.
      + destruct (read_annotation v); cbn [bind] in H; try discriminate H. injection H as <-. exact C.
      + destruct (to_scalar k) as [g| |]; cbn [bind] in H; try discriminate H. injection H as <-. apply X; [reflexivity|]. intros _. exact Ec.
    - destruct (to_scalar k) as [g| |]; cbn [bind] in H; try discriminate H. injection H as <-. apply X; [reflexivity|discriminate].
  Qed.
  Lemma marks_extra n l : lib_unmarshal n new_library = Ok l -> Forall (fun x => unmarked (fst x)) (ents (l_extra l)).
  Proof.
    unfold lib_unmarshal. destruct n as [t s|t es|t es]; cbn [map_fold]; try discriminate.
    assert (C0 : Forall (fun x => unmarked (fst x)) (ents (l_extra new_library))) by constructor. revert C0. generalize new_library.
    induction es as [|e es IH]; intros l0 C0 H; cbn [fold_res] in H; [injection H as <-; exact C0|].
    destruct (lib_assign l0 e) as [l1| |] eqn:E; cbn [bind] in H; try discriminate H. exact (IH l1 (marks_extra_step l0 e l1 C0 E) H).
  Qed.
  Lemma marks_out l : Forall (fun x => unmarked (fst x)) (ents (l_extra l)) -> lib_out (rename_library_marks r l) = map (top r) (lib_out l).
  Proof.
    intros C. pose proof (proj1 om) as fr. unfold lib_out. cbv zeta. cbn [rename_library_marks l_annotations l_annotationTypes l_extra l_uses l_resourceTypes l_securitySchemes l_traits l_types l_usage].
    apply top_if; [exact fr|reflexivity|]. apply top_all; [exact fr|apply (Forall_impl _ (fun e => unmarked_kept (fst e)) C)|]. apply top_if; [exact fr|reflexivity|]. apply top_marks; [exact fr|].
    do 4 (apply top_if; [exact fr|reflexivity|]). apply top_opt; [exact fr|reflexivity|reflexivity].
  Qed.
End Facts.

(** C111.  Reading and saving, without annotation types. *)
Theorem C111_read_partial (F : FloatIO) r n : only_marks r -> no_types n -> lib_unmarshal (rename_top r n) new_library = map_result (rename_library_marks r) (lib_unmarshal n new_library).
Proof. intros om N. exact (marks_read r om n N new_library). Qed.
Print Assumptions C111_read_partial.

Theorem C111_saved_partial (F : FloatIO) r n l l' : only_marks r -> no_types n -> (forall x, fst (float_text x) <> TStr) ->
  lib_unmarshal n new_library = Ok l -> lib_unmarshal (rename_top r n) new_library = Ok l' ->
  lib_marshal l' = map_result (rename_top r) (lib_marshal l).
Proof.
  intros om N Fl H H'. rewrite (C111_read_partial F r n om N), H in H'. cbn [map_result] in H'. injection H' as <-.
  unfold lib_marshal. rewrite (marks_out r om l (marks_extra n l H)). apply top_yaml. exact Fl.
Qed.
Print Assumptions C111_saved_partial.

(** Annotation types: they are kept among the annotations, so that an annotation that gets the name of one takes its place. *)
Lemma swap_only_marks v w : only_marks (call_it (String "(" v) (String "(" w)).
Proof.
  unfold call_it. split; [split; [apply call_it_inj|split]|]; intros a H.
  - destruct (String.eqb a (String "(" v)); [reflexivity|]. destruct (String.eqb a (String "(" w)); [reflexivity|exact H].
  - destruct (String.eqb_spec a (String "(" v)); [subst; discriminate H|]. destruct (String.eqb_spec a (String "(" w)); [subst; discriminate H|exact H].
  - destruct (String.eqb_spec a (String "(" v)); [subst; discriminate H|]. destruct (String.eqb_spec a (String "(" w)); [subst; discriminate H|reflexivity].
Qed.
Theorem C111_refuted (F : FloatIO) : exists r n l l', only_marks r /\
  lib_unmarshal n new_library = Ok l /\ lib_unmarshal (rename_top r n) new_library = Ok l' /\
  map fst (ents (l_annotations l)) = ["(b)"%string; "(a)"%string] /\ map fst (ents (l_annotations l')) = ["(b)"%string].
Proof.
  exists (call_it "(a)" "(b)"), (m_ [(s_ "annotationTypes", m_ [(s_ "(b)", m_ [])]); (s_ "(a)", m_ [])]). do 2 eexists.
  split; [apply swap_only_marks|]. do 3 (split; [reflexivity|]). reflexivity.
Qed.
Print Assumptions C111_refuted.

Definition a_library : node := m_ [(s_ "(a)", m_ [(s_ "v", s_ "1")]); (s_ "usage", s_ "u"); (s_ "(c)", m_ []); (s_ "/x", s_ "y")].
Example C111_case : let _ := {| float_of := fun _ s => None; float_text := fun _ => (TFloat, "0.5"%string) |} in
  only_marks (call_it "(a)" "(b)") /\ no_types a_library /\
  exists l l', lib_unmarshal a_library new_library = Ok l /\ lib_unmarshal (rename_top (call_it "(a)" "(b)") a_library) new_library = Ok l' /\
    lib_marshal l' = Ok (m_ [(s_ "usage", s_ "u"); (s_ "(b)", Seq TOMap [m_ [(s_ "v", s_ "1")]]); (s_ "(c)", Seq TOMap []); (s_ "/x", s_ "y")]).
Proof.
  cbv zeta. split; [apply swap_only_marks|]. split; [repeat constructor; discriminate|]. do 2 eexists. split; [reflexivity|]. split; [reflexivity|]. vm_compute. reflexivity.
Qed.
