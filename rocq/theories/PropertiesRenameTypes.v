(** C108: the names in type definitions. *)
From Coq Require Import SpecFloat.
From Verif Require Import Base Num OMap OMapSpec Keys Yaml Values Assign Formats Meta Out Xml Example Doc DataType Marshal TypeFacts Fields FieldProofs FacetSpec WriteSpec Segs  TypeSegs WriteProofs Exact Stable Api Library RenameSpec PropertiesRename.

Local Notation s_ := str_node.
Local Notation m_ := (Map TMap).

Section Facts.
  Context {F : FloatIO}.
  Variable R : renaming.
  Hypothesis inj : one_to_one R.

  Lemma kinds b x f c s : shaped (TExt b x f c s) -> b_kind b <> TyNil /\ b_kind b <> TyInclude /\ (b_kind b = TyObject <-> exists ps mn mx ad di dv, s = SObject ps mn mx ad di dv).
  Proof.
    unfold shaped, d_kind. cbn. destruct (b_kind b); cbn; intros H; try discriminate H; destruct s; try discriminate H;
      (split; [discriminate|split; [discriminate|split; [first [intros E; discriminate E | intros _; do 6 eexists; reflexivity]|]]]);
      intros (ps & mn & mx & ad & di & dv & E); first [reflexivity | discriminate E].
  Qed.
  Lemma in_names b x f c s : shaped (TExt b x f c s) -> In "facets"%string (type_names (b_kind b)) /\ In "examples"%string (type_names (b_kind b)).
  Proof. intros H. destruct (kinds _ _ _ _ _ H) as [N1 [N2 _]]. destruct (b_kind b); try congruence; cbn; tauto. Qed.

  Lemma spec_keeps s k w s1 : spec_assign hat s k w = Some (Ok s1) -> (match s with SObject _ _ _ _ _ _ => False | _ => True end) -> (match s1 with SObject _ _ _ _ _ _ => False | _ => True end).
  Proof.
    destruct s; cbn [spec_assign]; intros H Hn; try contradiction; try discriminate H;
      repeat match type of H with (if ?q then _ else _) = _ => destruct q end; try discriminate H; injection H as H;
      match type of H with bind ?y _ = _ => destruct y; cbn [bind] in H; try discriminate H; injection H as <-; exact I end.
  Qed.

  Lemma type_step d e : shaped d -> type_assign hat (rename_type R d) (rename_entry (lax (type_names (d_kind d))) R e) = map_result (rename_type R) (type_assign hat d e).
  Proof.
    intros Sh. destruct e as [k v]. unfold rename_entry, lax. cbn [fst snd]. destruct d as [b|b x f c s].
    { assert (N : type_names (d_kind (TBase b)) = []) by (revert Sh; unfold shaped, d_kind; cbn; destruct (b_kind b); cbn; intros H; try discriminate H; reflexivity).
      rewrite N. cbn [section existsb]. cbn [rename_type type_assign fst snd]. destruct (base_assign b k v); reflexivity. }
    destruct (kinds _ _ _ _ _ Sh) as [N1 [N2 Ho]]. destruct (in_names _ _ _ _ _ Sh) as [If Ie]. change (d_kind (TExt b x f c s)) with (b_kind b).
    unfold section. destruct (existsb (String.eqb (value k)) (type_names (b_kind b))) eqn:En.
    - apply named in En.
      assert (C : value k = "facets"%string \/ value k = "examples"%string \/ (value k = "properties"%string /\ b_kind b = TyObject)).
      { clear - En N1 N2. destruct (b_kind b); try congruence; cbn in En; intuition auto. }
      unfold type_assign. cbn [rename_type fst snd]. destruct C as [C|[C|[C Ck]]]; rewrite C.
      + assert (Hs : forall s' w, spec_assign hat s' "facets" w = None) by (intros [] w; reflexivity). cbn -[spec_assign ext_assign rename_names]. rewrite !Hs.
        unfold ext_assign. rewrite C. cbn -[read_facets rename_names]. unfold read_facets. rewrite read_rename by (intros p q; apply inj).
        destruct (read_amap _ f v); reflexivity.
      + cbn -[read_examples rename_names]. unfold read_examples. cbn [c_examples]. rewrite read_rename by (intros p q; apply inj). destruct (read_amap _ (c_examples c) v); reflexivity.
      + apply Ho in Ck as (ps & mn & mx & ad & di & dv & ->). cbn -[read_properties rename_names]. unfold read_properties. rewrite read_rename by (intros p q; apply inj).
        destruct (read_amap _ ps v); reflexivity.
    - unfold type_assign. cbn [rename_type fst snd]. rewrite (not_named _ _ "examples"%string En Ie). pose proof (not_named _ _ "facets"%string En If) as Nf.
      destruct (String.eqb (value k) KeyExample).
      { destruct (has_example (b_kind b)); [|reflexivity]. destruct (read_ex (b_kind b) v); reflexivity. }
      destruct (String.eqb (value k) KeyEnum).
      { cbn [c_enum]. destruct (read_enum (b_kind b) (c_enum c) v); reflexivity. }
      destruct (String.eqb (value k) KeyRequired).
      { destruct (run_assign (as_bool v (x_required x))); reflexivity. }
      assert (Hx : bind (ext_assign hat b x (rename_map (R "facets") f) k v) (fun r => let '(b', x', f') := r in
                     Ok (TExt b' x' f' (mkCom (c_def c) (c_example c) (rename_map (R "examples") (c_examples c)) (c_enum c))
                       (match s with SObject ps mn mx ad di dv => SObject (rename_map (R "properties") ps) mn mx ad di dv | _ => s end)))
        = map_result (rename_type R) (bind (ext_assign hat b x f k v) (fun r => let '(b', x', f') := r in Ok (TExt b' x' f' c s)))).
      { unfold ext_assign. rewrite Nf. destruct (String.eqb (value k) KeyDisplayName); [destruct (run_assign (as_string_ptr v (x_display x))); reflexivity|].
        destruct (String.eqb (value k) KeyDescription); [destruct (run_assign (as_string_ptr v (x_descr x))); reflexivity|].
        destruct (String.eqb (value k) KeyXML); [destruct (xml_unmarshal v new_xml); reflexivity|].
        destruct (if is_string k then annotations_in (value k) v (x_anns x) else Ok None) as [[a|]| |]; try reflexivity. cbn [bind]. destruct (base_assign b k v); reflexivity. }
      destruct s as [|u mn mx it|fm|ft mn mx|fm mn mx mu|fm mn mx mu|ps mn mx ad di dv|p mn mx].
      7:{ assert (Np : String.eqb (value k) "properties" = false).
          { apply (not_named _ _ "properties"%string En). rewrite (proj2 Ho) by eauto 10. cbn. tauto. }
          cbn [spec_assign]. rewrite Np.
          destruct (String.eqb (value k) KeyMinProperties); [destruct (run_assign (as_uint_ptr v mn)); reflexivity|].
          destruct (String.eqb (value k) KeyMaxProperties); [destruct (run_assign (as_uint_ptr v mx)); reflexivity|].
          destruct (String.eqb (value k) KeyAddtlProps); [destruct (run_assign (as_bool v ad)); reflexivity|].
          destruct (String.eqb (value k) KeyDiscriminator); [destruct (run_assign (as_string_ptr v di)); reflexivity|].
          destruct (String.eqb (value k) KeyDiscriminatorVal); [reflexivity|].
          exact Hx. }
      all: match goal with |- context [spec_assign hat ?s' ?k' ?w] => destruct (spec_assign hat s' k' w) as [r|] eqn:Er end;
        [destruct r as [s1| |]; cbn [bind map_result rename_type]; try reflexivity; apply spec_keeps in Er; [|exact I]; destruct s1; try contradiction; reflexivity|exact Hx].
  Qed.

  Lemma type_fold l : forall d, shaped d -> fold_res (type_assign hat) (rename_type R d) (map (rename_entry (lax (type_names (d_kind d))) R) l) = map_result (rename_type R) (fold_res (type_assign hat) d l).
  Proof.
    induction l as [|e l IH]; intros d Sh; [reflexivity|]. cbn [map fold_res]. rewrite type_step by exact Sh.
    destruct (type_assign hat d e) as [d1| |] eqn:E; cbn [map_result bind]; try reflexivity. apply assign_kind in E as [K S].
    rewrite <- K. apply IH. unfold shaped in *. rewrite K. eapply same_shape_trans; eassumption.
  Qed.
  Lemma sift_rename k l : sift_type (map (rename_entry (lax (type_names k)) R) l) = sift_type l.
  Proof.
    unfold sift_type. assert (E : forall p i, sift_scan (map (rename_entry (lax (type_names k)) R) l) p i = sift_scan l p i).
    { induction l as [|[a v] l IH]; intros p i; [reflexivity|]. cbn [map sift_scan]. unfold rename_entry at 1, lax. cbn [fst snd]. unfold section.
      destruct (existsb (String.eqb (value a)) (type_names k)) eqn:En; cbn [fst snd]; [|rewrite IH; reflexivity].
      assert (N : String.eqb (value a) KeyType || String.eqb (value a) KeySchema = false).
      { apply named in En. assert (C : value a = "facets"%string \/ value a = "examples"%string \/ value a = "properties"%string) by (destruct k; cbn in En; intuition auto).
        destruct C as [C|[C|C]]; rewrite C; reflexivity. }
      rewrite N, IH. reflexivity. }
    rewrite E. reflexivity.
  Qed.
  Lemma new_same s k : rename_type R (set_schema s (new_type k)) = set_schema s (new_type k).
  Proof. destruct k; reflexivity. Qed.

  Lemma hat_rename n : exists k, (forall d, hat n = Ok d -> d_kind d = k) /\ hat (rename_document (lax (type_names k)) R n) = map_result (rename_type R) (hat n).
  Proof.
    assert (St : forall s, hat n = Ok (set_schema s (new_type (kind_of s))) -> (forall k, hat (rename_document (lax (type_names k)) R n) = hat n) ->
      exists k, (forall d, hat n = Ok d -> d_kind d = k) /\ hat (rename_document (lax (type_names k)) R n) = map_result (rename_type R) (hat n)).
    { intros s E1 E2. exists (kind_of s). split; [intros d Hd; rewrite E1 in Hd; injection Hd as <-; rewrite d_kind_set, d_kind_new; reflexivity|].
      rewrite E2, E1. cbn [map_result]. rewrite new_same. reflexivity. }
    destruct (is_string n) eqn:Es.
    { apply (St (value n)).
      - rewrite hat_eq. unfold hat_body. rewrite Es, type_to_kind_eq. reflexivity.
      - intros k. rewrite !hat_eq. unfold hat_body. destruct n as [t s|t l|t l]; cbn [rename_document]; unfold is_string in *; cbn [node_tag] in *; rewrite ?Es; reflexivity. }
    destruct n as [t s|t l|t l].
    - exists TyInclude. split; [|cbn [rename_document]; rewrite hat_eq; unfold hat_body; rewrite Es; destruct t; reflexivity].
      intros d. rewrite hat_eq. unfold hat_body. rewrite Es. destruct t; try discriminate. intros H; injection H as <-. reflexivity.
    - exists TyInclude. split; [|cbn [rename_document]; rewrite hat_eq; unfold hat_body; rewrite Es; reflexivity].
      intros d. rewrite hat_eq. unfold hat_body. rewrite Es. discriminate.
    - assert (E : forall l', hat (Map t l') = bind (sift_type l') (fun d => fold_res (type_assign hat) d l')).
      { intros l'. rewrite hat_eq. unfold hat_body. unfold is_string in *. cbn [node_tag] in *. rewrite Es. reflexivity. }
      destruct (sift_type l) as [d0| |] eqn:E0.
      + destruct (sift_start _ _ E0) as [k [s Hd]]. exists (d_kind d0). split.
        * intros d. rewrite E, E0. cbn [bind]. intros H. apply fold_kind in H as [K _]. exact K.
        * cbn [rename_document]. rewrite !E, sift_rename, E0. cbn [bind].
          rewrite <- type_fold by (rewrite Hd; apply shaped_set_schema, shaped_new). rewrite Hd, new_same. reflexivity.
      + exists TyNil. split; [intros d; rewrite E, E0; discriminate|]. cbn [rename_document]. rewrite !E, sift_rename, E0. reflexivity.
      + exists TyNil. split; [intros d; rewrite E, E0; discriminate|]. cbn [rename_document]. rewrite !E, sift_rename, E0. reflexivity.
  Qed.

  (** What is read: nothing else is called as a section is. *)
  Definition clean_base (b : base) (x : ext) : Prop :=
    Forall (fun e => unnamed (type_names (b_kind b)) (fst e)) (ents (b_extra b)) /\ Forall (fun e => unnamed (type_names (b_kind b)) (KStr (fst e))) (ents (x_anns x)) /\
    Forall (fun e => fst e <> "type"%string) (ents (x_anns x)).
  Definition clean_type (d : dtype) : Prop := match d with TBase b => type_names (b_kind b) = [] | TExt b x _ _ _ => clean_base b x end.

  Lemma clean_ext b x f k v b' x' f' : clean_base b x -> (section (type_names (b_kind b)) (value k) = None \/ value k = "facets"%string) ->
    ext_assign hat b x f k v = Ok (b', x', f') -> clean_base b' x'.
  Proof.
    intros [C1 [C2 C3]] N H. unfold ext_assign in H.
    repeat match type of H with (if ?q then bind ?y _ else _) = _ => destruct q eqn:?Q; [destruct y; cbn [bind] in H; try discriminate H; injection H as <- <- <-; repeat split; assumption|] end.
    assert (N' : section (type_names (b_kind b)) (value k) = None).
    { destruct N as [N|N]; [exact N|]. rewrite N in *. discriminate. }
    destruct (if is_string k then annotations_in (value k) v (x_anns x) else Ok None) as [[a|]| |] eqn:Ea; cbn [bind] in H; try discriminate H.
    - injection H as <- <- <-. split; [exact C1|]. unfold clean_base. cbn [x_anns]. destruct (is_string k); [|discriminate Ea]. unfold annotations_in in Ea. destruct (value k) as [|c w] eqn:Ek; [discriminate Ea|].
      destruct (Ascii.eqb c "(") eqn:Ec; [|discriminate Ea]. apply Ascii.eqb_eq in Ec. subst c. destruct (read_annotation v); cbn [bind] in Ea; try discriminate Ea. injection Ea as <-.
      split; [apply (mput_all (fun s => unnamed (type_names (b_kind b)) (KStr s))); [exact N'|exact C2]|apply (mput_all (fun s => s <> "type"%string)); [discriminate|exact C3]].
    - unfold base_assign in H. destruct (String.eqb (value k) KeyType || String.eqb (value k) KeySchema).
      + destruct (to_str v); cbn [bind] in H; try discriminate H. injection H as <- <- <-. repeat split; assumption.
      + cbn [bind] in H. injection H as <- <- <-. split; [|split; [exact C2|exact C3]]. cbn [b_extra b_kind]. apply kput_all; [exact N'|exact C1].
  Qed.

  Lemma clean_type_step d e d' : shaped d -> clean_type d -> type_assign hat d e = Ok d' -> clean_type d'.
  Proof.
    destruct e as [k v]. intros Sh C H. destruct d as [b|b x f c s].
    { cbn [type_assign fst snd] in H. destruct (base_assign b k v) as [b'| |] eqn:Eb; cbn [bind] in H; try discriminate H. injection H as <-. cbn [clean_type] in *.
      unfold base_assign in Eb. destruct (_ || _); [destruct (to_str v); cbn [bind] in Eb; try discriminate Eb|]; injection Eb as <-; exact C. }
    destruct (kinds _ _ _ _ _ Sh) as [N1 [N2 Ho]]. cbn [clean_type] in C. unfold type_assign in H. cbn [fst snd] in H.
    destruct (String.eqb (value k) KeyExample) eqn:Q1.
    { destruct (has_example (b_kind b)); [|discriminate H]. destruct (read_ex (b_kind b) v); cbn [bind] in H; try discriminate H. injection H as <-. exact C. }
    destruct (String.eqb (value k) KeyExamples) eqn:Q2.
    { match type of H with bind ?y _ = _ => destruct y; cbn [bind] in H; try discriminate H end. injection H as <-. exact C. }
    destruct (String.eqb (value k) KeyEnum) eqn:Q3.
    { match type of H with bind ?y _ = _ => destruct y; cbn [bind] in H; try discriminate H end. injection H as <-. exact C. }
    destruct (String.eqb (value k) KeyRequired) eqn:Q4.
    { match type of H with bind ?y _ = _ => destruct y; cbn [bind] in H; try discriminate H end. injection H as <-. exact C. }
    destruct (spec_assign hat s (value k) v) as [r|] eqn:Er.
    { destruct r; cbn [bind] in H; try discriminate H. injection H as <-. exact C. }
    destruct (ext_assign hat b x f k v) as [[[b' x'] f']| |] eqn:Ee; cbn [bind] in H; try discriminate H. injection H as <-. cbn [clean_type].
    eapply clean_ext; [exact C| |exact Ee]. destruct (String.eqb (value k) "facets") eqn:Q5; [right; apply String.eqb_eq; exact Q5|left].
    unfold section. replace (existsb (String.eqb (value k)) (type_names (b_kind b))) with false; [reflexivity|]. symmetry. destruct (existsb _ _) eqn:En; [exfalso|reflexivity].
    apply named in En. assert (D : value k = "facets"%string \/ value k = "examples"%string \/ (value k = "properties"%string /\ b_kind b = TyObject)).
    { clear - En N1 N2. destruct (b_kind b); try congruence; cbn in En; intuition auto. }
    destruct D as [D|[D|[D Dk]]]; rewrite D in *; try discriminate. apply Ho in Dk as (ps & mn & mx & ad & di & dv & ->). discriminate Er.
  Qed.
  Lemma clean_type_fold l : forall d d', shaped d -> clean_type d -> fold_res (type_assign hat) d l = Ok d' -> clean_type d'.
  Proof.
    induction l as [|e l IH]; intros d d' Sh C H; cbn [fold_res] in H; [injection H as <-; exact C|].
    destruct (type_assign hat d e) as [d1| |] eqn:E; cbn [bind] in H; try discriminate H.
    apply (IH d1 d'); [|eapply clean_type_step; eassumption|exact H]. apply assign_kind in E as [K S]. unfold shaped in *. rewrite K. eapply same_shape_trans; eassumption.
  Qed.
  Lemma clean_new s k : clean_type (set_schema s (new_type k)).
  Proof. destruct k; cbn; try reflexivity; repeat split; constructor. Qed.
  Lemma clean_hat n d : hat n = Ok d -> clean_type d.
  Proof.
    rewrite hat_eq. unfold hat_body. destruct (is_string n).
    - intros H; injection H as <-. rewrite type_to_kind_eq. apply clean_new.
    - destruct n as [t v|t l|t l].
      + destruct t; try discriminate. intros H; injection H as <-. reflexivity.
      + discriminate.
      + intros H. apply bind_ok in H as [d0 [H0 H]]. apply sift_start in H0 as [k [s ->]].
        eapply clean_type_fold; [|apply clean_new|exact H]. apply shaped_set_schema, shaped_new.
  Qed.

  Lemma section_none names k : ~ In k names -> section names k = None.
  Proof.
    intros H. unfold section. destruct (existsb (String.eqb k) names) eqn:E; [|reflexivity]. exfalso. apply H. apply named. exact E.
  Qed.
  Lemma other_key (k : dkind) s : s <> "facets"%string -> s <> "examples"%string -> s <> "properties"%string -> unnamed (type_names k) (KStr s).
  Proof. intros A B C. apply section_none. intros H. destruct k; cbn in H; intuition congruence. Qed.
  Lemma unnamed_nil k : unnamed [] k.
  Proof. destruct k; cbn; exact I || reflexivity. Qed.

  Lemma base_ren names b o o' : unnamed names (KStr KeyType) -> Forall (fun e => unnamed names (fst e)) (ents (b_extra b)) -> o' = map (ren R names) o ->
    base_marshal b o' = map (ren R names) (base_marshal b o).
  Proof. intros H1 H2 E. unfold base_marshal. cbv zeta. apply all_same; [exact H2|]. apply put_same; assumption. Qed.

  Lemma type_out_ren d : shaped d -> clean_type d -> type_marshal to_yaml (rename_type R d) [] = map (ren R (type_names (d_kind d))) (type_marshal to_yaml d []).
  Proof.
    intros Sh C. destruct d as [b|b x f c s].
    { cbn [clean_type] in C. change (d_kind (TBase b)) with (b_kind b). rewrite C. cbn [rename_type type_marshal].
      rewrite <- (map_id (short_marshal b [])) at 1. apply map_ext. intros [k v]. symmetry. apply ren_unnamed. apply unnamed_nil. }
    destruct (kinds _ _ _ _ _ Sh) as [N1 [N2 Ho]]. destruct (in_names _ _ _ _ _ Sh) as [If Ie]. change (d_kind (TExt b x f c s)) with (b_kind b).
    destruct C as [C1 [C2 _]]. cbn [rename_type type_marshal]. unfold full_marshal. cbv zeta. cbn [c_def c_enum c_example c_examples].
    assert (U : forall w, w <> "facets"%string -> w <> "examples"%string -> w <> "properties"%string -> unnamed (type_names (b_kind b)) (KStr w)) by (intros; apply other_key; assumption).
    assert (Sf : section (type_names (b_kind b)) "facets" = Some "facets"%string) by (destruct (b_kind b); try congruence; reflexivity).
    assert (Se : section (type_names (b_kind b)) "examples" = Some "examples"%string) by (destruct (b_kind b); try congruence; reflexivity).
    unfold examples_to_yaml. apply sec_put; [exact Se|]. do 2 (apply opt_same; [apply U; discriminate|]).
    assert (X : ext_marshal to_yaml b x (rename_map (R "facets") f) (oput_opt (KStr KeyDefault) (option_map to_node (c_def c)) []) =
      map (ren R (type_names (b_kind b))) (ext_marshal to_yaml b x f (oput_opt (KStr KeyDefault) (option_map to_node (c_def c)) []))).
    { unfold ext_marshal. cbv zeta. apply opt_same; [apply U; discriminate|]. unfold facets_to_yaml. apply sec_put; [exact Sf|].
      apply all_same; [exact C2|]. apply if_same; [apply U; discriminate|]. apply base_ren; [apply U; discriminate|exact C1|].
      do 3 (apply opt_same; [apply U; discriminate|]). reflexivity. }
    revert X. generalize (ext_marshal to_yaml b x (rename_map (R "facets") f) (oput_opt (KStr KeyDefault) (option_map to_node (c_def c)) [])) (ext_marshal to_yaml b x f (oput_opt (KStr KeyDefault) (option_map to_node (c_def c)) [])).
    intros o' o X. destruct s as [|u mn mx it|fm|ft mn mx|fm mn mx mu|fm mn mx mu|ps mn mx ad di dv|p mn mx]; cbn [spec_marshal]; cbv zeta.
    7:{ unfold types_to_yaml. apply sec_put; [rewrite (proj2 Ho) by eauto 10; reflexivity|]. do 4 (apply opt_same; [apply U; discriminate|]). apply if_same; [apply U; discriminate|]. exact X. }
    all: repeat first [exact X | apply opt_same; [apply U; discriminate|] | apply if_same; [apply U; discriminate|]].
  Qed.


  Definition plain_type (e : gkey * res node) : Prop := fst e = KStr "type" -> exists t s, snd e = Ok (Scal t s).
  Lemma opt_plain k v : k <> "type"%string -> Forall plain_type (opt_seg k v).
  Proof. intros H. destruct v; constructor; [|constructor]. intros E. cbn in E. injection E as E. congruence. Qed.
  Lemma if_plain c k v : k <> "type"%string -> Forall plain_type (if_seg c k v).
  Proof. intros H. destruct c; constructor; [|constructor]. intros E. cbn in E. injection E as E. congruence. Qed.
  Lemma all_plain {K V} (kf : K -> gkey) (vf : V -> res node) l : Forall (fun e => kf (fst e) <> KStr "type") l -> Forall plain_type (all_seg kf vf l).
  Proof. unfold all_seg. induction 1 as [|e l He Hl IH]; constructor; [|exact IH]. intros E. cbn in E. congruence. Qed.
  Lemma segs_plain n d : hat n = Ok d -> Forall plain_type (segs to_yaml d).
  Proof.
    intros H. pose proof (clean_hat n d H) as C.
    assert (X : Forall plain_type (extra_segs (d_base d))).
    { apply all_plain. apply Forall_forall. intros e He E. apply (extra_unknown n d "type" H); [|destruct (d_kind d); cbn; tauto].
      unfold extra_keys. rewrite <- E. apply in_map. exact He. }
    assert (Y : plain_type (KStr "type", Ok (type_node (d_base d)))).
    { intros _. cbn [snd]. unfold type_node, str_node. destruct (b_kind (d_base d)); eauto. }
    unfold segs. destruct d as [b|b x f c s]; cbn [head_segs required_seg ann_segs tail_segs app].
    { rewrite app_nil_r. constructor; assumption. }
    destruct C as [_ [_ C]].
    assert (A : Forall plain_type (all_seg KStr untyped_to_yaml (ents (x_anns x)))).
    { apply all_plain. apply Forall_forall. intros e He E. rewrite Forall_forall in C. apply (C e He). injection E as E. exact E. }
    repeat first [apply Forall_app; split | apply opt_plain; discriminate | apply if_plain; discriminate | exact A | exact X | constructor; [exact Y|]].
    destruct s; cbn [spec_segs]; repeat first [apply Forall_app; split | apply opt_plain; discriminate | apply if_plain; discriminate | constructor].
  Qed.

  Lemma shas_ren names k o : shas gkey_eqb k (map (ren R names) o) = shas gkey_eqb k o.
  Proof. unfold shas. induction o as [|e o IH]; [reflexivity|]. cbn [map existsb]. rewrite fst_ren, IH. reflexivity. Qed.

  Lemma saved_ren n d : hat n = Ok d -> (forall x, fst (float_text x) <> TStr) ->
    to_yaml (rename_type R d) = map_result (rename_document (strict (type_names (d_kind d))) R) (to_yaml d).
  Proof.
    intros H Fl. pose proof (clean_hat n d H) as C. pose proof (hat_shaped n d H) as Sh. rewrite !TypeFacts.to_yaml_eq. unfold to_yaml_body. rewrite type_out_ren by assumption.
    assert (P : Forall plain_type (type_marshal to_yaml d [])).
    { rewrite type_marshal_segs by exact (kinds_out n d H). apply Forall_forall. intros e He. apply puts_keys in He as [He|[]]. pose proof (segs_plain n d H) as S. rewrite Forall_forall in S. exact (S e He). }
    revert P. generalize (type_marshal to_yaml d []). intros o P.
    assert (U : unnamed (type_names (d_kind d)) (KStr KeyType)) by (apply other_key; discriminate).
    unfold short_or_full. assert (Es : is_short (map (ren R (type_names (d_kind d))) o) = is_short o) by (unfold is_short; rewrite map_length, shas_ren; reflexivity).
    rewrite Es. destruct (is_short o) eqn:E; [|apply out_ren; exact Fl].
    unfold is_short in E. apply Bool.andb_true_iff in E as [E1 E2]. apply Nat.eqb_eq in E1. destruct o as [|[k r] [|e' o]]; try discriminate E1.
    unfold shas in E2. cbn [existsb fst] in E2. rewrite Bool.orb_false_r in E2.
    assert (Ek : k = KStr "type") by (destruct k; try discriminate E2; cbn in E2; apply String.eqb_eq in E2; congruence).
    subst k. inversion P as [|? ? P1 _]; subst. destruct (P1 eq_refl) as [t [s Er]]. cbn [snd] in Er. subst r. cbn [map]. rewrite ren_unnamed by exact U. reflexivity.
  Qed.
End Facts.

(** C108.  Reading: with other names for the properties (of an object), facets and examples, the definition is accepted, rejected or crashes as the original, it is of the same kind,
    and the object is the same with other names, in the same order. *)
Theorem C108_read (F : FloatIO) R n : one_to_one R ->
  exists k, (forall d, hat n = Ok d -> d_kind d = k) /\ hat (rename_document (lax (type_names k)) R n) = map_result (rename_type R) (hat n).
Proof. intros inj. exact (hat_rename R inj n). Qed.
Print Assumptions C108_read.

(** Saving: what is loaded with other names is saved as the original is, with other names. *)
Theorem C108_saved (F : FloatIO) R n d d' : one_to_one R -> (forall x, fst (float_text x) <> TStr) ->
  hat n = Ok d -> hat (rename_document (lax (type_names (d_kind d))) R n) = Ok d' ->
  d_kind d' = d_kind d /\ to_yaml d' = map_result (rename_document (strict (type_names (d_kind d))) R) (to_yaml d).
Proof.
  intros inj Fl H H'. destruct (C108_read F R n inj) as [k [K E]]. rewrite <- (K d H), H, H' in E. cbn [map_result] in E. injection E as ->.
  split; [destruct d; reflexivity|]. exact (saved_ren R n d H Fl).
Qed.
Print Assumptions C108_saved.

(** Two properties change places, a facet and an example get other names. *)
Definition other_names : renaming := fun sec x =>
  if String.eqb sec "properties" then call_it "name" "age" x else if String.eqb sec "facets" then call_it "unit" "measure" x else call_it "first" "second" x.
Definition a_person : node := m_ [(s_ "description", s_ "a person"); (s_ "properties", m_ [(s_ "name", s_ "string"); (s_ "age", m_ [(s_ "type", s_ "integer"); (s_ "required", Scal TBool "false")])]);
  (s_ "examples", m_ [(s_ "first", m_ [(s_ "value", m_ [(s_ "name", s_ "Ann")])])]); (s_ "facets", m_ [(s_ "unit", m_ [(s_ "x", s_ "string")])])].
Example C108_case : let _ := {| float_of := fun _ s => None; float_text := fun _ => (TFloat, "0.5"%string) |} in
  one_to_one other_names /\
  exists d d' s, hat a_person = Ok d /\ d_kind d = TyObject /\
    hat (rename_document (lax (type_names TyObject)) other_names a_person) = Ok d' /\ d' <> d /\
    to_yaml d' = Ok s /\ s = m_ [(s_ "description", s_ "a person"); (s_ "type", s_ "object"); (s_ "facets", Seq TOMap [m_ [(s_ "measure", Seq TOMap [m_ [(s_ "x", s_ "string")]])]]);
      (s_ "properties", m_ [(s_ "age", s_ "string"); (s_ "name", m_ [(s_ "type", s_ "integer"); (s_ "required", Scal TBool "false")])]);
      (s_ "examples", m_ [(s_ "second", m_ [(s_ "", m_ [(s_ "name", s_ "Ann")])])])].
Proof.
  cbv zeta. split.
  - intros sec a b. unfold other_names. destruct (String.eqb sec "properties"); [apply call_it_inj|]. destruct (String.eqb sec "facets"); apply call_it_inj.
  - do 3 eexists. split; [vm_compute; reflexivity|]. split; [reflexivity|]. split; [vm_compute; reflexivity|]. split; [discriminate|]. split; vm_compute; reflexivity.
Qed.
