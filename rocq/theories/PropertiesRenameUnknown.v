(** C112: the names of unknown entries. *)
From Coq Require Import SpecFloat.
From Verif Require Import Base Num OMap OMapSpec Keys Yaml Values Assign Formats Meta Out Example Doc DataType Marshal Api RenameSpec RenameTopSpec RenameFreeSpec RenameUnknownSpec PropertiesRename.

Local Notation s_ := str_node.
Local Notation m_ := (Map TMap).

Section Facts.
  Context {F : FloatIO}.
  Variable r : string -> string.
  Hypothesis fr : fair_unknown r.
  Let g := unknown_other r.

  Lemma u_inj a b : g a = g b -> a = b.
  Proof.
    unfold g, unknown_other. destruct (unknown a) eqn:Ea, (unknown b) eqn:Eb; intros H.
    - apply fr. exact H.
    - apply (proj2 fr) in Ea. congruence.
    - apply (proj2 fr) in Eb. congruence.
    - exact H.
  Qed.
  Lemma u_eq a b : gkey_eqb (rename_gkey g a) (rename_gkey g b) = gkey_eqb a b.
  Proof.
    destruct a, b; try reflexivity. cbn. match goal with |- String.eqb _ _ = String.eqb ?x ?y => destruct (String.eqb x y) eqn:E end.
    - apply String.eqb_eq in E. subst. apply String.eqb_refl.
    - apply String.eqb_neq in E. apply String.eqb_neq. intros H. apply E. apply u_inj. exact H.
  Qed.
  Lemma u_sput {V} k (v : V) o : sput gkey_eqb (rename_gkey g k) v (map (fun e => (rename_gkey g (fst e), snd e)) o) = map (fun e => (rename_gkey g (fst e), snd e)) (sput gkey_eqb k v o).
  Proof.
    unfold sput, sdelete. rewrite map_app. cbn [map fst snd]. f_equal.
    induction o as [|e o IH]; [reflexivity|]. cbn [map filter].
    assert (E : other gkey_eqb (rename_gkey g k) (rename_gkey g (fst e), snd e) = other gkey_eqb k e) by (unfold other; cbn [fst]; rewrite u_eq; reflexivity).
    rewrite E. destruct (other gkey_eqb k e); cbn [map]; rewrite IH; reflexivity.
  Qed.
  Lemma u_kput k v m : kput (rename_gkey g k) v (rename_extra g m) = rename_extra g (kput k v m).
  Proof. unfold kput, rename_extra. cbn [ents oord]. f_equal. exact (u_sput k v (ents m)). Qed.

  Lemma unknown_assign a s v : unknown s = true -> api_assign a (s_ s, v) = Ok (a_set_extra (kput (KStr s) (GNode v) (a_extra a)) a).
  Proof.
    unfold unknown. intros H. apply Bool.andb_true_iff in H as [H1 H2]. apply Bool.negb_true_iff in H1, H2. unfold free_name in H2. apply Bool.orb_false_iff in H2 as [H2 H3].
    destruct s as [|c w]; [discriminate H1|]. cbn [starts_with] in H2, H3. unfold api_assign. cbn [fst snd value str_node is_string node_tag negb]. rewrite H2, H3.
    rewrite ?(not_named _ _ KeyTitle H1), ?(not_named _ _ KeyVersion H1), ?(not_named _ _ KeyBaseURI H1), ?(not_named _ _ KeyDescription H1), ?(not_named _ _ KeyProtocols H1), ?(not_named _ _ KeyMediaType H1),
      ?(not_named _ _ KeyDocumentation H1), ?(not_named _ _ KeySecuredBy H1), ?(not_named _ _ KeyUses H1), ?(not_named _ _ KeySecuritySchemes H1), ?(not_named _ _ KeyBaseURIParams H1), ?(not_named _ _ KeyTraits H1),
      ?(not_named _ _ KeyAnnotationTypes H1), ?(not_named _ _ KeyResourceTypes H1), ?(not_named _ _ KeyTypes H1), ?(not_named _ _ KeySchemas H1) by (cbn; tauto). reflexivity.
  Qed.

  Lemma scalar_key k q : is_string k = false -> to_scalar k = Ok q -> rename_gkey g q = q.
  Proof.
    intros Es Eg. destruct k as [t s|t l|t l]; try discriminate Eg. destruct t; try discriminate Eg; try discriminate Es; cbn [to_scalar] in Eg;
      try (match type of Eg with bind ?x _ = _ => destruct x; cbn [bind] in Eg; try discriminate Eg end); injection Eg as <-; reflexivity.
  Qed.

  Lemma unknown_step a e : api_assign (rename_api_extra r a) (rename_key g (fst e), snd e) = map_result (rename_api_extra r) (api_assign a e).
  Proof.
    destruct e as [k v]. cbn [fst snd]. unfold rename_key. destruct (is_string k) eqn:Ek.
    2:{ unfold api_assign. cbn [fst snd]. rewrite Ek. cbn [negb]. destruct (to_scalar k) as [q| |] eqn:Eq; try reflexivity. cbn [bind map_result].
        unfold rename_api_extra, a_set_extra. cbn -[kput rename_extra]. fold g. rewrite <- (u_kput q). rewrite (scalar_key k q Ek Eq). reflexivity. }
    destruct (unknown (value k)) eqn:Eu.
    - assert (Hk : k = s_ (value k)).
      { destruct k as [t s|t l|t l]; [|discriminate Eu|discriminate Eu]. destruct t; try discriminate Ek. reflexivity. }
      rewrite Hk at 2. rewrite (unknown_assign a (value k) v Eu). assert (Hg : g (value k) = r (value k)) by (unfold g, unknown_other; rewrite Eu; reflexivity). rewrite Hg. rewrite (unknown_assign _ (r (value k)) v) by (apply fr; exact Eu).
      cbn [map_result]. unfold rename_api_extra, a_set_extra. cbn -[kput rename_extra]. fold g. rewrite <- (u_kput (KStr (value k))). cbn [rename_gkey]. rewrite Hg. reflexivity.
    - assert (Hg : g (value k) = value k) by (unfold g, unknown_other; rewrite Eu; reflexivity). rewrite Hg.
      unfold api_assign. cbn [fst snd value str_node is_string node_tag]. rewrite Ek. cbn [negb]. destruct (value k) as [|c w] eqn:Ev; [reflexivity|].
      unfold unknown, free_name in Eu. cbn [starts_with] in Eu.
      destruct (Ascii.eqb c "("); [destruct (read_annotation v); reflexivity|]. destruct (Ascii.eqb c "/"); [reflexivity|].
      cbn [orb negb] in Eu. rewrite Bool.andb_true_r in Eu. apply Bool.negb_false_iff in Eu. apply named in Eu.
      cbn [rename_api_extra a_annotations a_resources a_title a_version a_baseURI a_description a_protocols a_mediaType a_documentation a_securedBy a_uses a_securitySchemes a_baseURIParameters a_traits a_annotationTypes a_resourceTypes a_types].
      repeat match goal with
      | |- (if ?q then _ else _) = map_result _ (if ?q then _ else _) => let E := fresh "Q" in destruct q eqn:E; [match goal with |- context [bind ?x _] => destruct x; reflexivity end|]
      end.
      exfalso. repeat match goal with Q : _ || _ = false |- _ => apply Bool.orb_false_iff in Q as [? ?] end. cbn [In settings] in Eu.
      repeat (destruct Eu as [Eu|Eu]; [try discriminate Eu; rewrite <- Eu in *; discriminate|]). exact Eu.
  Qed.
  Lemma unknown_read a n : api_unmarshal (rename_unknown r n) (rename_api_extra r a) = map_result (rename_api_extra r) (api_unmarshal n a).
  Proof.
    unfold api_unmarshal, rename_unknown. destruct n as [t s|t l|t l]; cbn [rename_keys map_fold map_result]; try reflexivity. revert a.
    induction l as [|e l IH]; intros a; [reflexivity|]. cbn [map fold_res]. fold g. rewrite unknown_step. destruct (api_assign a e) as [a'| |]; cbn [map_result bind]; [apply IH|reflexivity|reflexivity].
  Qed.

  (** ** Saving *)
  Definition topu (e : gkey * res node) : gkey * res node := (rename_gkey g (fst e), snd e).
  Definition keptu (k : gkey) : Prop := rename_gkey g k = k.
  Lemma topu_put k v o o' : o' = map topu o -> oput (rename_gkey g k) v o' = map topu (oput k v o).
  Proof. intros ->. apply u_sput. Qed.
  Lemma topu_kept k v o o' : keptu k -> o' = map topu o -> oput k v o' = map topu (oput k v o).
  Proof. intros H E. unfold keptu in H. rewrite <- (topu_put k v o o' E), H. reflexivity. Qed.
  Lemma topu_opt k v o o' : keptu k -> o' = map topu o -> oput_opt k v o' = map topu (oput_opt k v o).
  Proof. intros H E. destruct v; [apply topu_kept; assumption|exact E]. Qed.
  Lemma topu_if c k v o o' : keptu k -> o' = map topu o -> oput_if c k v o' = map topu (oput_if c k v o).
  Proof. intros H E. destruct c; [apply topu_kept; assumption|exact E]. Qed.
  Lemma topu_extra (vf : gval -> res node) m : forall o o', o' = map topu o -> oput_all (fun k => k) vf (ents (rename_extra g m)) o' = map topu (oput_all (fun k => k) vf (ents m) o).
  Proof. cbn [rename_extra ents]. induction (ents m) as [|e l IH]; intros o o' E; [exact E|]. cbn. apply IH. apply topu_put. exact E. Qed.
  Lemma topu_all {V} (vf : V -> res node) l : Forall (fun e => free_name (fst e) = true) l -> forall o o', o' = map topu o -> oput_all KStr vf l o' = map topu (oput_all KStr vf l o).
  Proof.
    induction 1 as [|e l He Hl IH]; intros o o' E; [exact E|]. cbn. apply IH. apply topu_kept; [|exact E]. unfold keptu. cbn. unfold g, unknown_other, unknown. rewrite He, Bool.andb_false_r. reflexivity.
  Qed.

  Definition free_keys (a : api) : Prop := Forall (fun e => free_name (fst e) = true) (ents (a_annotations a)) /\ Forall (fun e => free_name (fst e) = true) (ents (a_resources a)).
  Lemma free_keys_step a e a' : free_keys a -> api_assign a e = Ok a' -> free_keys a'.
  Proof.
    intros [C1 C2] H. unfold api_assign in H. destruct (is_string (fst e)); cbn [negb] in H.
    2:{ destruct (to_scalar (fst e)); cbn [bind] in H; try discriminate H. injection H as <-. split; assumption. }
    destruct (value (fst e)) as [|c w]; [discriminate H|].
    destruct (Ascii.eqb c "(") eqn:Ec.
    { destruct (read_annotation (snd e)); cbn [bind] in H; try discriminate H. injection H as <-. split; [|exact C2]. cbn -[mput]. apply (mput_all (fun s => free_name s = true)); [|exact C1].
      unfold free_name. cbn [starts_with]. rewrite Ec. reflexivity. }
    destruct (Ascii.eqb c "/") eqn:Ec'.
    { injection H as <-. split; [exact C1|]. cbn -[mput]. apply (mput_all (fun s => free_name s = true)); [|exact C2]. unfold free_name. cbn [starts_with]. rewrite Ec', Bool.orb_true_r. reflexivity. }
    repeat match type of H with
    | (if ?q then _ else _) = Ok a' => destruct q; [match type of H with bind ?x _ = _ => destruct x; cbn [bind] in H; try discriminate H; injection H as <-; split; assumption end|]
    end.
    destruct (to_scalar (fst e)); cbn [bind] in H; try discriminate H. injection H as <-. split; assumption.
  Qed.
  Lemma free_keys_read n a : api_unmarshal n new_api = Ok a -> free_keys a.
  Proof.
    unfold api_unmarshal. destruct n as [t s|t l|t l]; cbn [map_fold]; try discriminate.
    assert (C0 : free_keys new_api) by (split; constructor). revert C0. generalize new_api.
    induction l as [|e l IH]; intros a0 C0 H; cbn [fold_res] in H; [injection H as <-; exact C0|].
    destruct (api_assign a0 e) as [a1| |] eqn:E; cbn [bind] in H; try discriminate H. exact (IH a1 (free_keys_step a0 e a1 C0 E) H).
  Qed.
  Lemma unknown_out a : free_keys a -> api_out (rename_api_extra r a) = map topu (api_out a).
  Proof.
    intros [C1 C2]. unfold api_out. cbv zeta.
    cbn [rename_api_extra a_title a_version a_baseURI a_description a_protocols a_mediaType a_documentation a_securedBy a_uses a_securitySchemes a_baseURIParameters a_traits a_annotationTypes a_resourceTypes
      a_annotations a_extra a_resources a_types].
    apply topu_if; [reflexivity|]. apply topu_all; [exact C2|]. apply topu_extra. apply topu_all; [exact C1|].
    repeat first [apply topu_if; [reflexivity|] | apply topu_opt; [reflexivity|]]. apply topu_kept; reflexivity.
  Qed.
  Lemma unknown_yaml o : (forall x, fst (float_text x) <> TStr) -> out_to_yaml (map topu o) = map_result (rename_unknown r) (out_to_yaml o).
  Proof.
    intros Fl. unfold out_to_yaml, map_to_yaml. cbn [oord ents].
    assert (E : map_res (entry_node key_node (fun r => r)) (map topu o) = map_result (map (fun e => (rename_key g (fst e), snd e))) (map_res (entry_node key_node (fun r => r)) o)).
    { induction o as [|[k v] o IH]; [reflexivity|]. cbn [map map_res]. rewrite IH. clear IH.
      assert (X : entry_node key_node (fun r => r) (topu (k, v)) = map_result (fun e => (rename_key g (fst e), snd e)) (entry_node key_node (fun r => r) (k, v))).
      { unfold entry_node, topu. cbn [fst snd]. destruct k as [|b|s|z|f|i]; cbn [rename_gkey key_node bind]; try (destruct v; reflexivity).
        destruct v as [x| |]; cbn [map_result bind]; try reflexivity. cbn [fst snd]. unfold rename_key.
        assert (N : is_string (float_node f) = false).
        { unfold float_node. pose proof (Fl f) as Hf. destruct (float_text f) as [t w]. cbn in *. destruct t; try reflexivity. congruence. }
        rewrite N. reflexivity. }
      rewrite X. destruct (entry_node key_node (fun r => r) (k, v)); cbn [map_result bind]; try reflexivity. destruct (map_res _ o); reflexivity. }
    rewrite E. destruct (map_res (entry_node key_node (fun r => r)) o); reflexivity.
  Qed.
End Facts.

(** C112.  Reading: the document with other names is accepted, rejected or crashes as the original, and the object is the same with other names, in the same order. *)
Theorem C112_read (F : FloatIO) r n : fair_unknown r -> api_unmarshal (rename_unknown r n) new_api = map_result (rename_api_extra r) (api_unmarshal n new_api).
Proof. intros fr. exact (unknown_read r fr new_api n). Qed.
Print Assumptions C112_read.

(** Saving. *)
Theorem C112_saved (F : FloatIO) r n a a' : fair_unknown r -> (forall x, fst (float_text x) <> TStr) ->
  api_unmarshal n new_api = Ok a -> api_unmarshal (rename_unknown r n) new_api = Ok a' ->
  api_marshal a' = map_result (rename_unknown r) (api_marshal a).
Proof.
  intros fr Fl H H'. rewrite (C112_read F r n fr), H in H'. cbn [map_result] in H'. injection H' as <-.
  unfold api_marshal. rewrite (unknown_out r fr a (free_keys_read n a H)). apply unknown_yaml. exact Fl.
Qed.
Print Assumptions C112_saved.

(** Two unknown entries change places. *)
Definition an_odd_api : node := m_ [(s_ "x", s_ "1"); (s_ "title", s_ "T"); (Scal TInt "7", s_ "2"); (s_ "y", s_ "3"); (s_ "/x", m_ [])].
Example C112_case : let _ := {| float_of := fun _ s => None; float_text := fun _ => (TFloat, "0.5"%string) |} in
  fair_unknown (call_it "x" "y") /\
  exists a a', api_unmarshal an_odd_api new_api = Ok a /\ api_unmarshal (rename_unknown (call_it "x" "y") an_odd_api) new_api = Ok a' /\
    api_marshal a' = Ok (m_ [(s_ "title", s_ "T"); (s_ "y", s_ "1"); (Scal TInt "7", s_ "2"); (s_ "x", s_ "3"); (s_ "/x", m_ [])]).
Proof.
  cbv zeta. split.
  - split; [apply call_it_inj|]. intros s H. unfold call_it. destruct (String.eqb s "x"); [reflexivity|]. destruct (String.eqb s "y"); [reflexivity|exact H].
  - do 2 eexists. split; [vm_compute; reflexivity|]. split; [vm_compute; reflexivity|]. vm_compute. reflexivity.
Qed.
