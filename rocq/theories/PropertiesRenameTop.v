(** C109: the names of annotations and the paths of resources. *)
From Coq Require Import SpecFloat.
From Verif Require Import Base Num OMap OMapSpec Keys Yaml Values Assign Formats Meta Out Example Doc DataType Marshal Api RenameSpec RenameTopSpec PropertiesRename.

Local Notation s_ := str_node.
Local Notation m_ := (Map TMap).

Section Facts.
  Context {F : FloatIO}.
  Variable r : string -> string.
  Hypothesis fr : fair r.

  Lemma free_other s : free_name s = true -> free_name (r s) = true.
  Proof.
    destruct fr as [_ [A B]]. unfold free_name. intros H. apply Bool.orb_true_iff in H as [H|H]; [rewrite (A _ H)|rewrite (B _ H), Bool.orb_true_r]; reflexivity.
  Qed.
  Lemma other_inj a b : other_name r a = other_name r b -> a = b.
  Proof.
    unfold other_name. destruct (free_name a) eqn:Ea, (free_name b) eqn:Eb; intros H.
    - apply fr. exact H.
    - apply free_other in Ea. congruence.
    - apply free_other in Eb. congruence.
    - exact H.
  Qed.
  Lemma other_same s : free_name s = false -> other_name r s = s.
  Proof. unfold other_name. intros ->. reflexivity. Qed.

  Lemma top_step a e : api_assign (rename_marks r a) (rename_key (other_name r) (fst e), snd e) = map_result (rename_marks r) (api_assign a e).
  Proof.
    destruct e as [k v]. cbn [fst snd]. unfold rename_key. destruct (is_string k) eqn:Ek.
    2:{ unfold api_assign. cbn [fst snd]. rewrite Ek. cbn [negb]. destruct (to_scalar k); reflexivity. }
    destruct (value k) as [|c w] eqn:Ev.
    { unfold api_assign. cbn [fst snd]. rewrite Ek, Ev. reflexivity. }
    destruct (Ascii.eqb c "(") eqn:E1.
    { assert (S : starts_with "(" (other_name r (String c w)) = true).
      { unfold other_name, free_name. cbn [starts_with]. rewrite E1. cbn [orb]. apply fr. exact E1. }
      unfold api_assign. cbn [fst snd value str_node]. rewrite Ek, Ev. cbn [negb is_string str_node node_tag]. rewrite E1.
      destruct (other_name r (String c w)) as [|c' w'] eqn:Eo; [discriminate S|]. cbn [starts_with] in S. rewrite S.
      destruct (read_annotation v); cbn [bind map_result]; try reflexivity. unfold rename_marks, a_set_annotations. cbn -[mput rename_map]. rewrite <- Eo, put_rename by exact other_inj. reflexivity. }
    destruct (Ascii.eqb c "/") eqn:E2.
    { assert (S : starts_with "/" (other_name r (String c w)) = true).
      { unfold other_name, free_name. cbn [starts_with]. rewrite E1, E2. cbn [orb]. apply fr. exact E2. }
      unfold api_assign. cbn [fst snd value str_node]. rewrite Ek, Ev. cbn [negb is_string str_node node_tag]. rewrite E1, E2.
      destruct (other_name r (String c w)) as [|c' w'] eqn:Eo; [discriminate S|]. cbn [starts_with] in S. rewrite S.
      assert (E1' : Ascii.eqb c' "(" = false) by (apply Ascii.eqb_eq in S; subst c'; reflexivity). rewrite E1'.
      cbn [map_result]. unfold rename_marks, a_set_resources. cbn -[mput rename_map]. rewrite <- Eo, put_rename by exact other_inj. reflexivity. }
    rewrite other_same by (unfold free_name; cbn [starts_with]; rewrite E1, E2; reflexivity).
    unfold api_assign. cbn [fst snd value str_node]. rewrite Ek, Ev. cbn [negb is_string str_node node_tag]. rewrite E1, E2.
    assert (Es : to_scalar (s_ (String c w)) = to_scalar k \/ to_scalar k = Err).
    { destruct k as [t s|t l|t l]; [|right; reflexivity|right; reflexivity]. cbn in Ev. subst s. destruct t; try discriminate Ek. left. reflexivity. }
    cbn [rename_marks a_annotations a_resources a_title a_version a_baseURI a_description a_protocols a_mediaType a_documentation a_securedBy a_extra a_uses a_securitySchemes a_baseURIParameters a_traits a_annotationTypes a_resourceTypes a_types].
    repeat match goal with
    | |- (if ?q then _ else _) = map_result _ (if ?q then _ else _) => destruct q; [match goal with |- context [bind ?x _] => destruct x; reflexivity end|]
    end.
    destruct k as [t s|t l|t l]; [|discriminate Ev|discriminate Ev]. cbn in Ev. subst s. destruct t; try discriminate Ek. reflexivity.
  Qed.

  Lemma top_read a n : api_unmarshal (rename_top r n) (rename_marks r a) = map_result (rename_marks r) (api_unmarshal n a).
  Proof.
    unfold api_unmarshal, rename_top. destruct n as [t s|t l|t l]; cbn [rename_keys map_fold map_result]; try reflexivity. revert a.
    induction l as [|e l IH]; intros a; [reflexivity|]. cbn [map fold_res]. rewrite top_step. destruct (api_assign a e) as [a'| |]; cbn [map_result bind]; [apply IH|reflexivity|reflexivity].
  Qed.

  (** ** Saving *)
  Definition rk (k : gkey) : gkey := match k with KStr s => KStr (other_name r s) | _ => k end.
  Definition top (e : gkey * res node) : gkey * res node := (rk (fst e), snd e).
  Definition kept (k : gkey) : Prop := rk k = k.
  Lemma rk_eq a b : gkey_eqb (rk a) (rk b) = gkey_eqb a b.
  Proof.
    destruct a, b; try reflexivity. cbn. match goal with |- String.eqb _ _ = String.eqb ?x ?y => destruct (String.eqb x y) eqn:E end.
    - apply String.eqb_eq in E. subst. apply String.eqb_refl.
    - apply String.eqb_neq in E. apply String.eqb_neq. intros H. apply E. apply other_inj. exact H.
  Qed.
  Lemma top_put k v o o' : o' = map top o -> oput (rk k) v o' = map top (oput k v o).
  Proof.
    intros ->. unfold oput, sput, sdelete. rewrite map_app. cbn [map]. f_equal.
    induction o as [|e o IH]; [reflexivity|]. cbn [map filter]. assert (E : other gkey_eqb (rk k) (top e) = other gkey_eqb k e) by (unfold other, top; cbn [fst]; rewrite rk_eq; reflexivity).
    rewrite E. destruct (other gkey_eqb k e); cbn [map]; rewrite IH; reflexivity.
  Qed.
  Lemma top_put_kept k v o o' : kept k -> o' = map top o -> oput k v o' = map top (oput k v o).
  Proof. intros H E. unfold kept in H. rewrite <- (top_put k v o o' E), H. reflexivity. Qed.
  Lemma top_opt k v o o' : kept k -> o' = map top o -> oput_opt k v o' = map top (oput_opt k v o).
  Proof. intros H E. destruct v; [apply top_put_kept; assumption|exact E]. Qed.
  Lemma top_if c k v o o' : kept k -> o' = map top o -> oput_if c k v o' = map top (oput_if c k v o).
  Proof. intros H E. destruct c; [apply top_put_kept; assumption|exact E]. Qed.
  Lemma top_all {V} (vf : V -> res node) l : Forall (fun e => kept (fst e)) l -> forall o o', o' = map top o -> oput_all (fun k => k) vf l o' = map top (oput_all (fun k => k) vf l o).
  Proof. induction 1 as [|e l He Hl IH]; intros o o' E; [exact E|]. cbn. apply IH. apply top_put_kept; assumption. Qed.
  Lemma top_marks {V} (vf : V -> res node) (m : amap string V) : forall o o', o' = map top o -> oput_all KStr vf (ents (rename_map (other_name r) m)) o' = map top (oput_all KStr vf (ents m) o).
  Proof.
    cbn [rename_map ents]. induction (ents m) as [|e l IH]; intros o o' E; [exact E|]. cbn. apply IH. apply (top_put (KStr (fst e))). exact E.
  Qed.

  Definition plain (k : gkey) : Prop := match k with KStr s => free_name s = false | _ => True end.
  Lemma plain_kept k : plain k -> kept k.
  Proof. destruct k; intros H; try reflexivity. unfold kept. cbn. rewrite other_same by exact H. reflexivity. Qed.

  Lemma extra_step a e a' : Forall (fun x => plain (fst x)) (ents (a_extra a)) -> api_assign a e = Ok a' -> Forall (fun x => plain (fst x)) (ents (a_extra a')).
  Proof.
    intros C H. unfold api_assign in H. destruct (is_string (fst e)) eqn:Es; cbn [negb] in H.
    2:{ destruct (to_scalar (fst e)) as [g| |] eqn:Eg; cbn [bind] in H; try discriminate H. injection H as <-. cbn -[kput]. apply kput_all; [|exact C].
        destruct (fst e) as [t s|t l|t l]; try discriminate Eg. destruct t; try discriminate Eg; try discriminate Es; cbn [to_scalar] in Eg;
          try (match type of Eg with bind ?x _ = _ => destruct x; cbn [bind] in Eg; try discriminate Eg end); injection Eg as <-; exact I. }
    destruct (value (fst e)) as [|c w] eqn:Ev; [discriminate H|].
    destruct (Ascii.eqb c "(") eqn:Ec; [destruct (read_annotation (snd e)); cbn [bind] in H; try discriminate H; injection H as <-; exact C|].
    destruct (Ascii.eqb c "/") eqn:Ec'; [injection H as <-; exact C|].
    repeat match type of H with
    | (if ?q then _ else _) = Ok a' => destruct q; [match type of H with bind ?x _ = _ => destruct x; cbn [bind] in H; try discriminate H; injection H as <-; exact C end|]
    end.
    destruct (to_scalar (fst e)) as [g| |] eqn:Eg; cbn [bind] in H; try discriminate H. injection H as <-. cbn -[kput]. apply kput_all; [|exact C].
    destruct (fst e) as [t s|t l|t l]; try discriminate Eg. destruct t; try discriminate Es. cbn in Eg, Ev. injection Eg as <-. subst s. cbn. unfold free_name. cbn [starts_with]. rewrite Ec, Ec'. reflexivity.
  Qed.
  Lemma extra_read n a : api_unmarshal n new_api = Ok a -> Forall (fun x => plain (fst x)) (ents (a_extra a)).
  Proof.
    unfold api_unmarshal. destruct n as [t s|t l|t l]; cbn [map_fold]; try discriminate.
    assert (C0 : Forall (fun x => plain (fst x)) (ents (a_extra new_api))) by constructor. revert C0. generalize new_api.
    induction l as [|e l IH]; intros a0 C0 H; cbn [fold_res] in H; [injection H as <-; exact C0|].
    destruct (api_assign a0 e) as [a1| |] eqn:E; cbn [bind] in H; try discriminate H. exact (IH a1 (extra_step a0 e a1 C0 E) H).
  Qed.

  Lemma top_out a : Forall (fun x => plain (fst x)) (ents (a_extra a)) -> api_out (rename_marks r a) = map top (api_out a).
  Proof.
    intros C. unfold api_out. cbv zeta.
    cbn [rename_marks a_title a_version a_baseURI a_description a_protocols a_mediaType a_documentation a_securedBy a_uses a_securitySchemes a_baseURIParameters a_traits a_annotationTypes a_resourceTypes
      a_annotations a_extra a_resources a_types].
    apply top_if; [reflexivity|]. apply top_marks. apply top_all; [apply (Forall_impl _ (fun e => plain_kept (fst e)) C)|]. apply top_marks.
    repeat first [apply top_if; [reflexivity|] | apply top_opt; [reflexivity|]]. apply top_put_kept; reflexivity.
  Qed.

  Lemma top_yaml o : (forall x, fst (float_text x) <> TStr) -> out_to_yaml (map top o) = map_result (rename_top r) (out_to_yaml o).
  Proof.
    intros Fl. unfold out_to_yaml, map_to_yaml. cbn [oord ents].
    assert (E : map_res (entry_node key_node (fun r => r)) (map top o) = map_result (map (fun e => (rename_key (other_name r) (fst e), snd e))) (map_res (entry_node key_node (fun r => r)) o)).
    { induction o as [|[k v] o IH]; [reflexivity|]. cbn [map map_res]. rewrite IH. clear IH.
      assert (X : entry_node key_node (fun r => r) (top (k, v)) = map_result (fun e => (rename_key (other_name r) (fst e), snd e)) (entry_node key_node (fun r => r) (k, v))).
      { unfold entry_node, top. cbn [fst snd]. destruct k as [|b|s|z|f|i]; cbn [rk key_node bind]; try (destruct v; reflexivity).
        destruct v as [x| |]; cbn [map_result bind]; try reflexivity. cbn [fst snd]. unfold rename_key.
        assert (N : is_string (float_node f) = false).
        { unfold float_node. pose proof (Fl f) as Hf. destruct (float_text f) as [t w]. cbn in *. destruct t; try reflexivity. congruence. }
        rewrite N. reflexivity. }
      rewrite X. destruct (entry_node key_node (fun r => r) (k, v)); cbn [map_result bind]; try reflexivity. destruct (map_res _ o); reflexivity. }
    rewrite E. destruct (map_res (entry_node key_node (fun r => r)) o); reflexivity.
  Qed.
End Facts.

(** C109.  Reading: the document with other names is accepted, rejected or crashes as the original, and the object is the same with other names, in the same order. *)
Theorem C109_read (F : FloatIO) r n : fair r -> api_unmarshal (rename_top r n) new_api = map_result (rename_marks r) (api_unmarshal n new_api).
Proof. intros fr. exact (top_read r fr new_api n). Qed.
Print Assumptions C109_read.

(** Saving. *)
Theorem C109_saved (F : FloatIO) r n a a' : fair r -> (forall x, fst (float_text x) <> TStr) ->
  api_unmarshal n new_api = Ok a -> api_unmarshal (rename_top r n) new_api = Ok a' ->
  api_marshal a' = map_result (rename_top r) (api_marshal a).
Proof.
  intros fr Fl H H'. rewrite (C109_read F r n fr), H in H'. cbn [map_result] in H'. injection H' as <-.
  unfold api_marshal. rewrite (top_out r fr a (extra_read n a H)). apply top_yaml. exact Fl.
Qed.
Print Assumptions C109_saved.

(** Two annotations change places, and so do two resources. *)
Definition swapped : string -> string := fun x => call_it "(a)" "(b)" (call_it "/users" "/types" x).
Definition an_api : node := m_ [(s_ "title", s_ "T"); (s_ "/users", m_ []); (s_ "(a)", m_ [(s_ "v", s_ "1")]); (s_ "(b)", m_ [(s_ "v", s_ "2")]); (s_ "x", s_ "y"); (s_ "/types", s_ "z")].
Example C109_case : let _ := {| float_of := fun _ s => None; float_text := fun _ => (TFloat, "0.5"%string) |} in
  fair swapped /\
  exists a a', api_unmarshal an_api new_api = Ok a /\ api_unmarshal (rename_top swapped an_api) new_api = Ok a' /\
    api_marshal a = Ok (m_ [(s_ "title", s_ "T"); (s_ "(a)", Seq TOMap [m_ [(s_ "v", s_ "1")]]); (s_ "(b)", Seq TOMap [m_ [(s_ "v", s_ "2")]]); (s_ "x", s_ "y"); (s_ "/users", m_ []); (s_ "/types", s_ "z")]) /\
    api_marshal a' = Ok (m_ [(s_ "title", s_ "T"); (s_ "(b)", Seq TOMap [m_ [(s_ "v", s_ "1")]]); (s_ "(a)", Seq TOMap [m_ [(s_ "v", s_ "2")]]); (s_ "x", s_ "y"); (s_ "/types", m_ []); (s_ "/users", s_ "z")]).
Proof.
  cbv zeta. split.
  - split; [intros a b H; apply call_it_inj in H; apply call_it_inj in H; exact H|]. unfold swapped, call_it. split; intros a H.
    + destruct (String.eqb a "/users") eqn:E1; [apply String.eqb_eq in E1; subst a; discriminate H|]. destruct (String.eqb a "/types") eqn:E2; [apply String.eqb_eq in E2; subst a; discriminate H|].
      destruct (String.eqb a "(a)"); [reflexivity|]. destruct (String.eqb a "(b)"); [reflexivity|exact H].
    + destruct (String.eqb a "/users"); [reflexivity|]. destruct (String.eqb a "/types"); [reflexivity|].
      destruct (String.eqb a "(a)") eqn:E1; [apply String.eqb_eq in E1; subst a; discriminate H|]. destruct (String.eqb a "(b)") eqn:E2; [apply String.eqb_eq in E2; subst a; discriminate H|exact H].
  - do 2 eexists. split; [vm_compute; reflexivity|]. split; [vm_compute; reflexivity|]. split; vm_compute; reflexivity.
Qed.
