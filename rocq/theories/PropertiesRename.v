(** C105: the names of definitions. *)
From Coq Require Import SpecFloat.
From Verif Require Import Base Num OMap OMapSpec Keys Yaml Values Assign Meta Out Doc DataType Marshal Api Library RenameSpec.

Local Notation s_ := str_node.
Local Notation m_ := (Map TMap).

Lemma to_str_rename r k : to_str (rename_key r k) = map_result r (to_str k).
Proof. unfold to_str, rename_key. destruct (is_string k) eqn:E; [reflexivity|]. rewrite E. reflexivity. Qed.

Lemma filter_rename {V} (r : string -> string) (inj : forall a b, r a = r b -> a = b) k (l : list (string * V)) :
  filter (other String.eqb (r k)) (map (fun e => (r (fst e), snd e)) l) = map (fun e => (r (fst e), snd e)) (filter (other String.eqb k) l).
Proof.
  induction l as [|[a v] l IH]; [reflexivity|]. cbn [map filter fst snd].
  assert (E : other String.eqb (r k) (r a, v) = other String.eqb k (a, v)).
  { unfold other. cbn [fst]. f_equal. destruct (String.eqb_spec a k) as [->|N]; [apply String.eqb_refl|]. apply String.eqb_neq. intros X. exact (N (inj _ _ X)). }
  rewrite E. destruct (other String.eqb k (a, v)); cbn [map fst snd]; rewrite IH; reflexivity.
Qed.
Lemma put_rename {V} (r : string -> string) (inj : forall a b, r a = r b -> a = b) k (v : V) m : mput (r k) v (rename_map r m) = rename_map r (mput k v m).
Proof. unfold mput, rename_map, sput, sdelete. cbn [ents oord]. rewrite filter_rename by exact inj. rewrite map_app. reflexivity. Qed.

Lemma read_rename {V} (dec : node -> res V) r (inj : forall a b, r a = r b -> a = b) v m : read_amap dec (rename_map r m) (rename_names r v) = map_result (rename_map r) (read_amap dec m v).
Proof.
  unfold read_amap. destruct v as [t s|t l|t l]; [reflexivity|destruct t; reflexivity|]. cbn [rename_names rename_keys map_fold]. revert m.
  induction l as [|[k x] l IH]; intros m; [reflexivity|]. cbn [map fold_res fst snd]. unfold read_amap_pair at 1. unfold read_amap_pair at 2. cbn [fst snd]. rewrite to_str_rename.
  destruct (to_str k) as [s| |]; cbn [map_result bind]; try reflexivity. destruct (dec x) as [y| |]; cbn [bind map_result]; try reflexivity.
  rewrite put_rename by exact inj. apply IH.
Qed.

Lemma not_named names s t : existsb (String.eqb s) names = false -> In t names -> String.eqb s t = false.
Proof. intros H Ht. apply String.eqb_neq. intros ->. assert (X : existsb (String.eqb t) names = true) by (apply existsb_exists; exists t; split; [exact Ht|apply String.eqb_refl]). congruence. Qed.
Lemma named names s : existsb (String.eqb s) names = true -> In s names.
Proof. intros H. apply existsb_exists in H as [t [Ht E]]. apply String.eqb_eq in E. subst t. exact Ht. Qed.

Section Facts.
  Context {F : FloatIO}.
  Variable R : renaming.
  Hypothesis inj : one_to_one R.

  Lemma api_step a e : api_assign (rename_api R a) (rename_entry (strict api_names) R e) = map_result (rename_api R) (api_assign a e).
  Proof.
    destruct e as [k v]. unfold rename_entry, strict. cbn [fst snd]. destruct (is_string k) eqn:Ek.
    2:{ unfold api_assign. cbn [fst snd]. rewrite Ek. cbn [negb]. destruct (to_scalar k); reflexivity. }
    unfold section. destruct (existsb (String.eqb (value k)) api_names) eqn:En.
    - apply named in En. unfold api_assign. cbn [fst snd]. rewrite Ek. cbn [negb].
      cbn [In api_names lib_names] in En. destruct En as [En|[En|[En|[En|[En|[En|[En|[En|[]]]]]]]]]; rewrite <- En; cbn -[read_untyped read_types read_strings rename_api];
        unfold read_untyped, read_types, read_strings; cbn [rename_api a_annotationTypes a_baseURIParameters a_types a_traits a_resourceTypes a_securitySchemes a_uses];
        rewrite read_rename by (intros x y; apply inj);
        match goal with |- context [read_amap ?d ?m ?w] => destruct (read_amap d m w) end; reflexivity.
    - unfold api_assign. cbn [fst snd]. rewrite Ek. cbn [negb].
      destruct (value k) as [|c w] eqn:Ev; [reflexivity|]. rewrite <- Ev in *.
      rewrite (not_named _ _ "uses"%string En), (not_named _ _ "securitySchemes"%string En), (not_named _ _ "baseUriParameters"%string En), (not_named _ _ "traits"%string En),
        (not_named _ _ "annotationTypes"%string En), (not_named _ _ "resourceTypes"%string En), (not_named _ _ "types"%string En), (not_named _ _ "schemas"%string En)
        by (cbn [In api_names lib_names]; tauto).
      cbn [orb rename_api a_annotations a_resources a_title a_version a_baseURI a_description a_protocols a_mediaType a_documentation a_securedBy a_extra].
      repeat match goal with
      | |- context [if ?c then _ else _] => destruct c
      | |- context [bind ?x _] => destruct x; cbn [bind map_result]; try reflexivity
      end; reflexivity.
  Qed.

  Lemma api_read a n : api_unmarshal (rename_document (strict api_names) R n) (rename_api R a) = map_result (rename_api R) (api_unmarshal n a).
  Proof.
    unfold api_unmarshal. destruct n as [t s|t l|t l]; cbn [rename_document map_fold map_result]; try reflexivity. revert a.
    induction l as [|e l IH]; intros a; [reflexivity|]. cbn [map fold_res]. rewrite api_step. destruct (api_assign a e) as [a'| |]; cbn [map_result bind]; [apply IH|reflexivity|reflexivity].
  Qed.

  (** ** Saving *)
  Variable names : list string.
  Definition ren (e : gkey * res node) : gkey * res node :=
    match fst e with
    | KStr s => match section names s with Some sec => (fst e, map_result (rename_names (R sec)) (snd e)) | None => e end
    | _ => e
    end.
  Definition unnamed (k : gkey) : Prop := match k with KStr s => section names s = None | _ => True end.

  Lemma fst_ren e : fst (ren e) = fst e.
  Proof. destruct e as [[| |s| | |] r]; try reflexivity. unfold ren. cbn [fst]. destruct (section names s); reflexivity. Qed.
  Lemma filter_ren k o : filter (other gkey_eqb k) (map ren o) = map ren (filter (other gkey_eqb k) o).
  Proof. induction o as [|e o IH]; [reflexivity|]. cbn [map filter]. assert (E : other gkey_eqb k (ren e) = other gkey_eqb k e) by (unfold other; rewrite fst_ren; reflexivity). rewrite E. destruct (other gkey_eqb k e); cbn [map]; rewrite IH; reflexivity. Qed.
  Lemma put_ren k v v' o o' : ren (k, v) = (k, v') -> o' = map ren o -> oput k v' o' = map ren (oput k v o).
  Proof. intros H ->. unfold oput, sput, sdelete. rewrite filter_ren, map_app. cbn [map]. rewrite H. reflexivity. Qed.
  Lemma ren_unnamed k v : unnamed k -> ren (k, v) = (k, v).
  Proof. intros H. destruct k as [| |s| | |]; try reflexivity. unfold ren. cbn [fst]. cbn [unnamed] in H. rewrite H. reflexivity. Qed.
  Lemma put_same k v o o' : unnamed k -> o' = map ren o -> oput k v o' = map ren (oput k v o).
  Proof. intros H E. apply put_ren; [apply ren_unnamed; exact H|exact E]. Qed.
  Lemma opt_same k v o o' : unnamed k -> o' = map ren o -> oput_opt k v o' = map ren (oput_opt k v o).
  Proof. intros H E. destruct v; [apply put_same; assumption|exact E]. Qed.
  Lemma all_same {K V} (kf : K -> gkey) (vf : V -> res node) l : Forall (fun e => unnamed (kf (fst e))) l -> forall o o', o' = map ren o -> oput_all kf vf l o' = map ren (oput_all kf vf l o).
  Proof. induction 1 as [|e l He Hl IH]; intros o o' E; [exact E|]. cbn. apply IH. apply put_same; assumption. Qed.

  Lemma nonempty_rename {V} r (m : amap string V) : nonempty (rename_map r m) = nonempty m.
  Proof. destruct m as [[|e l] b]; reflexivity. Qed.
  Lemma yaml_rename {V} (vn : V -> res node) r (m : amap string V) : map_to_yaml skey_node vn (rename_map r m) = map_result (rename_names r) (map_to_yaml skey_node vn m).
  Proof.
    unfold map_to_yaml. cbn [rename_map oord ents].
    assert (E' : map_res (fun e => do p <- entry_node skey_node vn e; Ok (Map TMap [p])) (map (fun e => (r (fst e), snd e)) (ents m)) =
      map_result (map (rename_keys r)) (map_res (fun e => do p <- entry_node skey_node vn e; Ok (Map TMap [p])) (ents m))).
    { clear. induction (ents m) as [|[k v] l IH]; [reflexivity|]. cbn [map map_res fst snd]. rewrite IH. unfold entry_node. cbn [fst snd skey_node bind].
      destruct (vn v); cbn [bind map_result]; try reflexivity. match goal with |- context [map_res ?g l] => destruct (map_res g l) end; reflexivity. }
    assert (E : map_res (entry_node skey_node vn) (map (fun e => (r (fst e), snd e)) (ents m)) = map_result (map (fun e => (rename_key r (fst e), snd e))) (map_res (entry_node skey_node vn) (ents m))).
    { clear. induction (ents m) as [|[k v] l IH]; [reflexivity|]. cbn [map map_res fst snd]. rewrite IH. unfold entry_node. cbn [fst snd skey_node bind].
      destruct (vn v); cbn [bind map_result]; try reflexivity. match goal with |- context [map_res ?g l] => destruct (map_res g l) end; reflexivity. }
    destruct (oord m); [rewrite E'; destruct (map_res (fun e => do p <- entry_node skey_node vn e; Ok (Map TMap [p])) (ents m)); reflexivity|].
    rewrite E. destruct (map_res (entry_node skey_node vn) (ents m)); reflexivity.
  Qed.
  Lemma sec_put {V} (vn : V -> res node) s sec (m : amap string V) o o' : section names s = Some sec -> o' = map ren o ->
    oput_if (nonempty (rename_map (R sec) m)) (KStr s) (map_to_yaml skey_node vn (rename_map (R sec) m)) o' = map ren (oput_if (nonempty m) (KStr s) (map_to_yaml skey_node vn m) o).
  Proof.
    intros Hs E. rewrite nonempty_rename. destruct (nonempty m); cbn [oput_if]; [|exact E]. apply put_ren; [|exact E].
    unfold ren. cbn [fst snd]. rewrite Hs, yaml_rename. reflexivity.
  Qed.

  Lemma out_ren o : (forall x, fst (float_text x) <> TStr) -> out_to_yaml (map ren o) = map_result (rename_document (strict names) R) (out_to_yaml o).
  Proof.
    intros Fl. unfold out_to_yaml, map_to_yaml. cbn [oord ents].
    assert (E : map_res (entry_node key_node (fun r => r)) (map ren o) = map_result (map (rename_entry (strict names) R)) (map_res (entry_node key_node (fun r => r)) o)).
    { induction o as [|[k r] o IH]; [reflexivity|]. cbn [map map_res]. rewrite IH. clear IH.
      assert (X : entry_node key_node (fun r => r) (ren (k, r)) = map_result (rename_entry (strict names) R) (entry_node key_node (fun r => r) (k, r))).
      { unfold entry_node. rewrite fst_ren. cbn [fst snd]. destruct k as [|b|s|z|f|i]; unfold ren; cbn [fst snd key_node bind]; try (destruct r; reflexivity).
        - destruct (section names s) as [sec|] eqn:Es; cbn [snd]; destruct r as [x| |]; cbn [map_result bind]; try reflexivity; unfold rename_entry, strict; cbn [fst snd]; cbn; rewrite Es; reflexivity.
        - destruct r as [x| |]; cbn [map_result bind]; try reflexivity. unfold rename_entry, strict. cbn [fst snd].
          assert (N : is_string (float_node f) = false).
          { unfold float_node. pose proof (Fl f) as Hf. destruct (float_text f) as [t v]. cbn in *. destruct t; try reflexivity. congruence. }
          rewrite N. reflexivity. }
      rewrite X. destruct (entry_node key_node (fun r => r) (k, r)); cbn [map_result bind]; try reflexivity. destruct (map_res _ o); reflexivity. }
    rewrite E. destruct (map_res (entry_node key_node (fun r => r)) o); reflexivity.
  Qed.
End Facts.

Section Clean.
  Context {F : FloatIO}.

  (** What is read: sections are not kept as ordered maps, and nothing else is called as a section is. *)
  Definition apart_keys {V} names (kf : V -> gkey) (l : list V) : Prop := Forall (fun k => unnamed names (kf k)) l.
  Definition clean (a : api) : Prop :=
    (oord (a_uses a) = false /\ oord (a_securitySchemes a) = false /\ oord (a_baseURIParameters a) = false /\ oord (a_traits a) = false /\
     oord (a_annotationTypes a) = false /\ oord (a_resourceTypes a) = false /\ oord (a_types a) = false) /\
    Forall (fun e => unnamed api_names (KStr (fst e))) (ents (a_annotations a)) /\ Forall (fun e => unnamed api_names (fst e)) (ents (a_extra a)) /\
    Forall (fun e => unnamed api_names (KStr (fst e))) (ents (a_resources a)).

  Lemma read_oord {V} (dec : node -> res V) v m m' : read_amap dec m v = Ok m' -> oord m' = oord m.
  Proof.
    unfold read_amap. destruct v as [t s|t l|t l]; cbn [map_fold]; try discriminate. revert m. induction l as [|[k x] l IH]; intros m H; cbn [fold_res] in H; [injection H as <-; reflexivity|].
    unfold read_amap_pair at 1 in H. cbn [fst snd] in H. destruct (to_str k); cbn [bind] in H; try discriminate H. destruct (dec x); cbn [bind] in H; try discriminate H.
    rewrite (IH _ H). reflexivity.
  Qed.
  Lemma kput_all {V} (P : gkey -> Prop) k (v : V) m : P k -> Forall (fun e => P (fst e)) (ents m) -> Forall (fun e => P (fst e)) (ents (kput k v m)).
  Proof. intros Hk H. unfold kput, sput, sdelete. cbn [ents]. apply Forall_app. split; [|repeat constructor; exact Hk]. apply Forall_forall. intros e He. apply filter_In in He as [He _]. rewrite Forall_forall in H. exact (H e He). Qed.
  Lemma mput_all {V} (P : string -> Prop) k (v : V) m : P k -> Forall (fun e => P (fst e)) (ents m) -> Forall (fun e => P (fst e)) (ents (mput k v m)).
  Proof. intros Hk H. unfold mput, sput, sdelete. cbn [ents]. apply Forall_app. split; [|repeat constructor; exact Hk]. apply Forall_forall. intros e He. apply filter_In in He as [He _]. rewrite Forall_forall in H. exact (H e He). Qed.

  Lemma scalar_unnamed names k g : to_scalar k = Ok g -> (is_string k = true -> section names (value k) = None) -> unnamed names g.
  Proof.
    destruct k as [t s|t l|t l]; try discriminate. destruct t; cbn [to_scalar]; try discriminate; intros H N.
    all: try (injection H as <-; first [exact I | apply N; reflexivity]).
    all: match type of H with bind ?x _ = _ => destruct x; cbn [bind] in H; try discriminate H; injection H as <-; exact I end.
  Qed.

  Lemma clean_step a e a' : clean a -> api_assign a e = Ok a' -> clean a'.
  Proof.
    intros [(O1 & O2 & O3 & O4 & O5 & O6 & O7) [C1 [C2 C3]]] H. unfold api_assign in H. destruct (is_string (fst e)) eqn:Es; cbn [negb] in H.
    2:{ destruct (to_scalar (fst e)) as [g| |] eqn:Eg; cbn [bind] in H; try discriminate H. injection H as <-. unfold clean. cbn -[kput]. repeat split; auto.
        apply kput_all; [|exact C2]. apply (scalar_unnamed _ _ _ Eg). congruence. }
    destruct (value (fst e)) as [|c w] eqn:Ev; [discriminate H|].
    destruct (Ascii.eqb c "(") eqn:Ec.
    { apply Ascii.eqb_eq in Ec. subst c. destruct (read_annotation (snd e)); cbn [bind] in H; try discriminate H. injection H as <-. unfold clean. cbn -[mput]. repeat split; auto.
      apply (mput_all (fun s => unnamed api_names (KStr s))); [reflexivity|exact C1]. }
    destruct (Ascii.eqb c "/") eqn:Ec'.
    { apply Ascii.eqb_eq in Ec'. subst c. injection H as <-. unfold clean. cbn -[mput]. repeat split; auto. apply (mput_all (fun s => unnamed api_names (KStr s))); [reflexivity|exact C3]. }
    clear Ec Ec'. rewrite <- Ev in H.
    repeat match type of H with
    | (if ?q then _ else _) = Ok a' => let E := fresh "Q" in destruct q eqn:E;
        [try (match type of H with bind ?x _ = _ => destruct x as [y| |] eqn:Er; cbn [bind] in H; try discriminate H; injection H as <-; unfold clean; cbn; repeat split; auto;
              apply read_oord in Er; congruence end)|]
    end.
    destruct (to_scalar (fst e)) as [g| |] eqn:Eg; cbn [bind] in H; try discriminate H. injection H as <-. unfold clean. cbn -[kput]. repeat split; auto.
    apply kput_all; [|exact C2]. apply (scalar_unnamed _ _ _ Eg). intros _. unfold section.
    repeat match goal with Q : _ || _ = false |- _ => apply Bool.orb_false_iff in Q as [? ?] end.
    unfold api_names, lib_names. cbn [existsb].
    repeat match goal with Q : String.eqb (value (fst e)) _ = false |- _ => rewrite Q; clear Q end. reflexivity.
  Qed.
  Lemma clean_read n a : api_unmarshal n new_api = Ok a -> clean a.
  Proof.
    unfold api_unmarshal. destruct n as [t s|t l|t l]; cbn [map_fold]; try discriminate.
    assert (C0 : clean new_api) by (unfold clean; cbn; repeat split; constructor). revert C0. generalize new_api.
    induction l as [|e l IH]; intros a0 C0 H; cbn [fold_res] in H; [injection H as <-; exact C0|].
    destruct (api_assign a0 e) as [a1| |] eqn:E; cbn [bind] in H; try discriminate H. exact (IH a1 (clean_step a0 e a1 C0 E) H).
  Qed.

  Lemma api_out_ren R a : clean a -> api_out (rename_api R a) = map (ren R api_names) (api_out a).
  Proof.
    intros [(O1 & O2 & O3 & O4 & O5 & O6 & O7) [C1 [C2 C3]]]. unfold api_out. cbv zeta.
    cbn [rename_api a_title a_version a_baseURI a_description a_protocols a_mediaType a_documentation a_securedBy a_uses a_securitySchemes a_baseURIParameters a_traits a_annotationTypes a_resourceTypes
      a_annotations a_extra a_resources a_types].
    unfold string_map_node, untyped_to_yaml, types_to_yaml.
    apply sec_put; [reflexivity|]. apply all_same; [exact C3|]. apply all_same; [exact C2|]. apply all_same; [exact C1|].
    apply sec_put; [reflexivity|]. apply sec_put; [reflexivity|]. apply sec_put; [reflexivity|]. apply sec_put; [reflexivity|].
    apply sec_put; [reflexivity|]. apply sec_put; [reflexivity|].
    repeat (apply opt_same; [reflexivity|]). apply put_same; [reflexivity|]. reflexivity.
  Qed.
End Clean.

Section Libraries.
  Context {F : FloatIO}.

  Lemma lib_step R l e : one_to_one R -> lib_assign (rename_library R l) (rename_entry (lax lib_names) R e) = map_result (rename_library R) (lib_assign l e).
  Proof.
    intros inj. destruct e as [k v]. unfold rename_entry, lax. cbn [fst snd]. unfold section. destruct (existsb (String.eqb (value k)) lib_names) eqn:En.
    - apply named in En. unfold lib_assign. cbn [fst snd]. cbn [In lib_names] in En.
      destruct En as [En|[En|[En|[En|[En|[En|[]]]]]]]; rewrite <- En; cbn -[read_untyped read_types read_strings rename_library];
        unfold read_untyped, read_types, read_strings; cbn [rename_library l_types l_traits l_resourceTypes l_securitySchemes l_uses];
        rewrite read_rename by (intros x y; apply inj);
        match goal with |- context [read_amap ?d ?m ?w] => destruct (read_amap d m w) end; reflexivity.
    - unfold lib_assign. cbn [fst snd].
      rewrite (not_named _ _ "uses"%string En), (not_named _ _ "securitySchemes"%string En), (not_named _ _ "traits"%string En),
        (not_named _ _ "resourceTypes"%string En), (not_named _ _ "types"%string En), (not_named _ _ "schemas"%string En)
        by (cbn [In lib_names]; tauto).
      cbn [orb rename_library l_annotations l_usage l_extra]. destruct (String.eqb (value k) KeyAnnotationTypes); [destruct (read_annotations (l_annotations l) v); reflexivity|].
      destruct (String.eqb (value k) KeyUsage); [match goal with |- context [bind ?x _] => destruct x end; reflexivity|].
      destruct (is_string k); [|destruct (to_scalar k); reflexivity]. destruct (value k) as [|c w]; [reflexivity|].
      destruct (Ascii.eqb c "("); [destruct (read_annotation v); reflexivity|destruct (to_scalar k); reflexivity].
  Qed.
  Lemma lib_read R l n : one_to_one R -> lib_unmarshal (rename_document (lax lib_names) R n) (rename_library R l) = map_result (rename_library R) (lib_unmarshal n l).
  Proof.
    intros inj. unfold lib_unmarshal. destruct n as [t s|t es|t es]; cbn [rename_document map_fold map_result]; try reflexivity. revert l.
    induction es as [|e es IH]; intros l; [reflexivity|]. cbn [map fold_res]. rewrite lib_step by exact inj. destruct (lib_assign l e) as [l'| |]; cbn [map_result bind]; [apply IH|reflexivity|reflexivity].
  Qed.

  Definition clean_library (l : library) : Prop :=
    (oord (l_uses l) = false /\ oord (l_securitySchemes l) = false /\ oord (l_traits l) = false /\ oord (l_resourceTypes l) = false /\ oord (l_types l) = false) /\
    Forall (fun e => unnamed lib_names (KStr (fst e))) (ents (l_annotations l)) /\ Forall (fun e => unnamed lib_names (fst e)) (ents (l_extra l)).

  Lemma clean_library_step l e l' : value (fst e) <> "annotationTypes"%string -> clean_library l -> lib_assign l e = Ok l' -> clean_library l'.
  Proof.
    intros Na [(O1 & O2 & O3 & O4 & O5) [C1 C2]] H. unfold lib_assign in H. apply String.eqb_neq in Na. rewrite Na in H. clear Na.
    repeat match type of H with
    | (if String.eqb ?a ?b then _ else _) = Ok l' => let E := fresh "Q" in destruct (String.eqb a b) eqn:E;
        [try (match type of H with bind ?x _ = _ => destruct x as [y| |] eqn:Er; cbn [bind] in H; try discriminate H; injection H as <-; unfold clean_library; cbn; repeat split; auto;
              apply read_oord in Er; congruence end)|]
    | (if String.eqb ?a ?b || String.eqb ?a ?c then _ else _) = Ok l' => let E := fresh "Q" in destruct (String.eqb a b || String.eqb a c) eqn:E;
        [try (match type of H with bind ?x _ = _ => destruct x as [y| |] eqn:Er; cbn [bind] in H; try discriminate H; injection H as <-; unfold clean_library; cbn; repeat split; auto;
              apply read_oord in Er; congruence end)|]
    end.
    assert (N : section lib_names (value (fst e)) = None).
    { repeat match goal with Q : _ || _ = false |- _ => apply Bool.orb_false_iff in Q as [? ?] end. unfold section, lib_names. cbn [existsb].
      repeat match goal with Q : String.eqb (value (fst e)) _ = false |- _ => rewrite Q; clear Q end. reflexivity. }
    assert (X : forall g, to_scalar (fst e) = Ok g -> clean_library (l_set_extra (kput g (GNode (snd e)) (l_extra l)) l)).
    { intros g Eg. unfold clean_library. cbn -[kput]. repeat split; auto. apply kput_all; [|exact C2]. apply (scalar_unnamed _ _ _ Eg). intros _. exact N. }
    destruct (is_string (fst e)).
    2:{ destruct (to_scalar (fst e)) as [g| |]; cbn [bind] in H; try discriminate H. injection H as <-. apply X. reflexivity. }
    destruct (value (fst e)) as [|c w] eqn:Ev; [discriminate H|]. destruct (Ascii.eqb c "(") eqn:Ec.
    - destruct (read_annotation (snd e)); cbn [bind] in H; try discriminate H. injection H as <-. unfold clean_library. cbn -[mput]. repeat split; auto.
      apply (mput_all (fun s => unnamed lib_names (KStr s))); [exact N|exact C1].
    - destruct (to_scalar (fst e)) as [g| |]; cbn [bind] in H; try discriminate H. injection H as <-. apply X. reflexivity.
  Qed.
  Lemma clean_library_read t es l : Forall (fun e => value (fst e) <> "annotationTypes"%string) es -> lib_unmarshal (Map t es) new_library = Ok l -> clean_library l.
  Proof.
    unfold lib_unmarshal. cbn [map_fold].
    assert (C0 : clean_library new_library) by (unfold clean_library; cbn; repeat split; constructor). revert C0. generalize new_library.
    intros l0 C0 N. revert l0 C0. induction N as [|e es He Hes IH]; intros l0 C0 H; cbn [fold_res] in H; [injection H as <-; exact C0|].
    destruct (lib_assign l0 e) as [l1| |] eqn:E; cbn [bind] in H; try discriminate H. exact (IH l1 (clean_library_step l0 e l1 He C0 E) H).
  Qed.
  Lemma if_same R names c k v o o' : unnamed names k -> o' = map (ren R names) o -> oput_if c k v o' = map (ren R names) (oput_if c k v o).
  Proof. intros H E. destruct c; [apply put_same; assumption|exact E]. Qed.
  Lemma lib_out_ren R l : clean_library l -> lib_out (rename_library R l) = map (ren R lib_names) (lib_out l).
  Proof.
    intros [(O1 & O2 & O3 & O4 & O5) [C1 C2]]. unfold lib_out. cbv zeta.
    cbn [rename_library l_usage l_uses l_securitySchemes l_traits l_annotationTypes l_annotations l_resourceTypes l_extra l_types].
    unfold string_map_node, untyped_to_yaml, types_to_yaml.
    apply sec_put; [reflexivity|]. apply all_same; [exact C2|]. apply sec_put; [reflexivity|]. apply all_same; [exact C1|].
    apply if_same; [reflexivity|]. apply sec_put; [reflexivity|]. apply sec_put; [reflexivity|]. apply sec_put; [reflexivity|].
    apply opt_same; [reflexivity|]. reflexivity.
  Qed.
End Libraries.

(** C105.  Reading: the document with other names is accepted, rejected or crashes as the original, and the object is the same with other names, in the same order. *)
Theorem C105_read (F : FloatIO) R n : one_to_one R ->
  api_unmarshal (rename_document (strict api_names) R n) new_api = map_result (rename_api R) (api_unmarshal n new_api).
Proof. intros inj. exact (api_read R inj new_api n). Qed.
Print Assumptions C105_read.

(** Saving: what is loaded from the document with other names is saved as the original is, with other names. *)
Theorem C105_saved (F : FloatIO) R n a a' : one_to_one R -> (forall x, fst (float_text x) <> TStr) ->
  api_unmarshal n new_api = Ok a -> api_unmarshal (rename_document (strict api_names) R n) new_api = Ok a' ->
  api_marshal a' = map_result (rename_document (strict api_names) R) (api_marshal a).
Proof.
  intros inj Fl H H'. rewrite (C105_read F R n inj), H in H'. cbn [map_result] in H'. injection H' as <-.
  unfold api_marshal. rewrite (api_out_ren R a (clean_read n a H)). apply out_ren. exact Fl.
Qed.
Print Assumptions C105_saved.

(** C106.  The same for libraries, where the names of annotation types are not changed. *)
Theorem C106_read_partial (F : FloatIO) R n : one_to_one R ->
  lib_unmarshal (rename_document (lax lib_names) R n) new_library = map_result (rename_library R) (lib_unmarshal n new_library).
Proof. intros inj. exact (lib_read R new_library n inj). Qed.
Print Assumptions C106_read_partial.

(** Saving, without annotation types. *)
Theorem C106_saved_partial (F : FloatIO) R t es l l' : one_to_one R -> (forall x, fst (float_text x) <> TStr) -> Forall (fun e => value (fst e) <> "annotationTypes"%string) es ->
  lib_unmarshal (Map t es) new_library = Ok l -> lib_unmarshal (rename_document (lax lib_names) R (Map t es)) new_library = Ok l' ->
  lib_marshal l' = map_result (rename_document (strict lib_names) R) (lib_marshal l).
Proof.
  intros inj Fl N H H'. rewrite (C106_read_partial F R _ inj), H in H'. cbn [map_result] in H'. injection H' as <-.
  unfold lib_marshal. rewrite (lib_out_ren R l (clean_library_read t es l N H)). apply out_ren. exact Fl.
Qed.
Print Assumptions C106_saved_partial.

(** The names of annotation types: with another name for one, the library's annotations are others, and with the name `types` what is saved does not load. *)
Definition call_it (s t : string) (x : string) : string := if String.eqb x s then t else if String.eqb x t then s else x.
Lemma call_it_inj s t a b : call_it s t a = call_it s t b -> a = b.
Proof.
  unfold call_it. destruct (String.eqb_spec a s), (String.eqb_spec a t), (String.eqb_spec b s), (String.eqb_spec b t); intros E; subst; congruence.
Qed.
Theorem C106_refuted (F : FloatIO) : exists R n l l' s s' again, one_to_one R /\
  lib_unmarshal n new_library = Ok l /\ lib_unmarshal (rename_document (lax ("annotationTypes"%string :: lib_names)) R n) new_library = Ok l' /\
  l_annotationTypes l = l_annotationTypes l' /\ map fst (ents (l_annotations l)) = ["note"%string] /\ map fst (ents (l_annotations l')) = ["types"%string] /\
  lib_marshal l = Ok s /\ lib_marshal l' = Ok s' /\ lib_unmarshal s new_library = Ok again /\ lib_unmarshal s' new_library = Err.
Proof.
  exists (fun _ => call_it "note" "types"), (m_ [(s_ "annotationTypes", m_ [(s_ "note", m_ [(s_ "A", s_ "string")])])]). do 5 eexists.
  split; [intros sec a b; apply call_it_inj|]. do 8 (split; [reflexivity|]). reflexivity.
Qed.
Print Assumptions C106_refuted.

#[local] Instance toy : FloatIO := { float_of := fun _ s => None; float_text := fun _ => (TFloat, "0.5"%string) }.
Definition some_document : node :=
  m_ [(s_ "title", s_ "T"); (s_ "types", m_ [(s_ "A", s_ "string"); (s_ "B", s_ "A")]); (s_ "schemas", m_ [(s_ "A", s_ "integer")]); (s_ "traits", m_ [(s_ "paged", m_ [])]); (s_ "/A", m_ []); (s_ "(A)", m_ [])].
Example C105_case :
  one_to_one (fun _ => call_it "A" "Person") /\
  (exists a, api_unmarshal some_document new_api = Ok a /\ map fst (ents (a_types a)) = ["B"%string; "A"%string]) /\
  (exists a, api_unmarshal (rename_document (strict api_names) (fun _ => call_it "A" "Person") some_document) new_api = Ok a /\ map fst (ents (a_types a)) = ["B"%string; "Person"%string]) /\
  rename_document (strict api_names) (fun _ => call_it "A" "Person") some_document =
    m_ [(s_ "title", s_ "T"); (s_ "types", m_ [(s_ "Person", s_ "string"); (s_ "B", s_ "A")]); (s_ "schemas", m_ [(s_ "Person", s_ "integer")]); (s_ "traits", m_ [(s_ "paged", m_ [])]); (s_ "/A", m_ []); (s_ "(A)", m_ [])].
Proof. split; [intros sec a b; apply call_it_inj|]. split; [eexists; split; reflexivity|]. split; [eexists; split; reflexivity|reflexivity]. Qed.

Definition some_library : node := m_ [(s_ "usage", s_ "u"); (s_ "types", m_ [(s_ "A", s_ "string")]); (s_ "traits", m_ [(s_ "A", m_ [])]); (s_ "odd", s_ "A")].
Example C106_case : Forall (fun e => value (fst e) <> "annotationTypes"%string) (match some_library with Map _ l => l | _ => [] end) /\
  exists l, lib_unmarshal some_library new_library = Ok l /\ exists l', lib_unmarshal (rename_document (lax lib_names) (fun _ => call_it "A" "Person") some_library) new_library = Ok l' /\
  lib_marshal l' = Ok (m_ [(s_ "usage", s_ "u"); (s_ "traits", m_ [(s_ "Person", m_ [])]); (s_ "odd", s_ "A"); (s_ "types", m_ [(s_ "Person", s_ "string")])]).
Proof. split; [repeat constructor; discriminate|]. eexists. split; [reflexivity|]. eexists. split; [reflexivity|]. vm_compute. reflexivity. Qed.
