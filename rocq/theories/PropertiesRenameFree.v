(** C110: the names of annotations and unknown facets in type definitions. *)
From Coq Require Import SpecFloat.
From Verif Require Import Base Num OMap OMapSpec Keys Yaml Values Assign Formats Meta Out Xml Example Doc DataType Marshal TypeFacts Fields FieldProofs FacetSpec WriteSpec Segs TypeSegs WriteProofs Exact Stable
  Api Library RenameSpec RenameTopSpec RenameFreeSpec PropertiesRename PropertiesRenameTypes.

Local Notation s_ := str_node.
Local Notation m_ := (Map TMap).

Section Facts.
  Context {F : FloatIO}.
  Variable kd : dkind.
  Variable r : string -> string.
  Hypothesis fr : fair_for kd r.
  Let g := free_other kd r.

  Lemma g_inj a b : g a = g b -> a = b.
  Proof.
    unfold g, free_other. destruct (no_meaning kd a) eqn:Ea, (no_meaning kd b) eqn:Eb; intros H.
    - apply fr. exact H.
    - apply (proj2 fr) in Ea as [Ea _]. congruence.
    - apply (proj2 fr) in Eb as [Eb _]. congruence.
    - exact H.
  Qed.
  Lemma g_paren s : starts_with "(" (g s) = starts_with "(" s.
  Proof. unfold g, free_other. destruct (no_meaning kd s) eqn:E; [|reflexivity]. apply fr. exact E. Qed.
  Lemma free_not s w : no_meaning kd s = true -> In w ("" :: "properties" :: "items" :: known_keys kd)%string -> String.eqb s w = false.
  Proof. unfold no_meaning. intros H Hw. apply Bool.negb_true_iff in H. exact (not_named _ _ w H Hw). Qed.
  Lemma g_test s w : In w ("" :: "properties" :: "items" :: known_keys kd)%string -> String.eqb (g s) w = String.eqb s w.
  Proof.
    intros Hw. unfold g, free_other. destruct (no_meaning kd s) eqn:E; [|reflexivity]. rewrite (free_not _ w E Hw). apply (proj2 fr) in E as [E _]. exact (free_not _ w E Hw).
  Qed.
  Lemma g_known w : In w ("" :: "properties" :: "items" :: known_keys kd)%string -> g w = w.
  Proof. intros H. unfold g, free_other. destruct (no_meaning kd w) eqn:E; [|reflexivity]. pose proof (free_not _ w E H) as N. rewrite String.eqb_refl in N. discriminate N. Qed.

  Lemma gk_eq a b : gkey_eqb (rename_gkey g a) (rename_gkey g b) = gkey_eqb a b.
  Proof.
    destruct a, b; try reflexivity. cbn. match goal with |- String.eqb _ _ = String.eqb ?x ?y => destruct (String.eqb x y) eqn:E end.
    - apply String.eqb_eq in E. subst. apply String.eqb_refl.
    - apply String.eqb_neq in E. apply String.eqb_neq. intros H. apply E. apply g_inj. exact H.
  Qed.
  Lemma sput_free {V} k (v : V) o : sput gkey_eqb (rename_gkey g k) v (map (fun e => (rename_gkey g (fst e), snd e)) o) = map (fun e => (rename_gkey g (fst e), snd e)) (sput gkey_eqb k v o).
  Proof.
    unfold sput, sdelete. rewrite map_app. cbn [map fst snd]. f_equal.
    induction o as [|e o IH]; [reflexivity|]. cbn [map filter].
    assert (E : other gkey_eqb (rename_gkey g k) (rename_gkey g (fst e), snd e) = other gkey_eqb k e) by (unfold other; cbn [fst]; rewrite gk_eq; reflexivity).
    rewrite E. destruct (other gkey_eqb k e); cbn [map]; rewrite IH; reflexivity.
  Qed.
  Lemma kput_free s v m : kput (KStr (g s)) v (rename_extra g m) = rename_extra g (kput (KStr s) v m).
  Proof. unfold kput, rename_extra. cbn [ents oord]. f_equal. exact (sput_free (KStr s) v (ents m)). Qed.

  Lemma same_string k : is_string (rename_value g k) = is_string k.
  Proof. destruct k; reflexivity. Qed.
  Lemma value_free k : value (rename_value g k) = g (value k).
  Proof. destruct k; cbn [rename_value value]; try reflexivity; rewrite g_known; cbn; tauto. Qed.

  Lemma base_free b k v : base_assign (rename_base g b) (rename_value g k) v = map_result (rename_base g) (base_assign b k v).
  Proof.
    unfold base_assign. rewrite value_free, !g_test by (cbn; tauto). destruct (_ || _).
    - destruct (to_str v); reflexivity.
    - cbn [map_result]. unfold rename_base. cbn [b_schema b_kind b_extra]. rewrite kput_free. reflexivity.
  Qed.

  Lemma spec_free b x f c s u v : shaped (TExt b x f c s) -> b_kind b = kd -> spec_assign hat s (g u) v = spec_assign hat s u v.
  Proof.
    unfold shaped, d_kind. cbn [d_base]. intros Sh K. pose proof g_test as T. rewrite K in Sh. clearbody g. clear - Sh T. revert T. destruct kd; intros T; cbn in Sh; try discriminate Sh; destruct s; try discriminate Sh; cbn [spec_assign];
      repeat match goal with |- context [String.eqb (g u) ?w] => rewrite (T u w) by (cbn; tauto) end; reflexivity.
  Qed.

  Lemma anns_free u v m : annotations_in (g u) v (rename_map g m) = map_result (option_map (rename_map g)) (annotations_in u v m).
  Proof.
    pose proof (g_paren u) as P. pose proof (g_test u ""%string ltac:(cbn; tauto)) as E. unfold annotations_in at 2. destruct u as [|c w].
    - destruct (g "") as [|c' w'] eqn:Eg; [reflexivity|discriminate E].
    - destruct (g (String c w)) as [|c' w'] eqn:Eg; [discriminate E|]. cbn [annotations_in starts_with] in *. rewrite P. destruct (Ascii.eqb c "("); [|reflexivity].
      destruct (read_annotation v); cbn [bind map_result option_map]; try reflexivity. rewrite <- Eg, put_rename by exact g_inj. reflexivity.
  Qed.

  Lemma common_known b x f c s : shaped (TExt b x f c s) -> b_kind b = kd -> forall w, In w ["example"; "examples"; "enum"; "required"; "displayName"; "description"; "facets"; "xml"]%string -> In w (known_keys kd).
  Proof.
    intros Sh K w Hw. destruct (kinds _ _ _ _ _ Sh) as [N1 [N2 _]]. rewrite K in N1, N2. clear - Hw N1 N2. cbn in Hw. destruct kd; try congruence; cbn; intuition (subst; auto 20).
  Qed.

  Lemma free_step d e : shaped d -> d_kind d = kd -> type_assign hat (rename_rest g d) (rename_value g (fst e), snd e) = map_result (rename_rest g) (type_assign hat d e).
  Proof.
    intros Sh K. destruct e as [k v]. cbn [fst snd]. destruct d as [b|b x f c s].
    { cbn [rename_rest type_assign fst snd]. rewrite base_free. destruct (base_assign b k v); reflexivity. }
    change (d_kind (TExt b x f c s)) with (b_kind b) in K. pose proof (common_known _ _ _ _ _ Sh K) as Ck.
    assert (T : forall w, In w ["example"; "examples"; "enum"; "required"; "displayName"; "description"; "facets"; "xml"]%string -> String.eqb (g (value k)) w = String.eqb (value k) w).
    { intros w Hw. apply g_test. do 3 right. apply Ck. exact Hw. }
    unfold type_assign. cbn [rename_rest fst snd]. change (b_kind (rename_base g b)) with (b_kind b). rewrite value_free, (spec_free _ _ _ _ _ _ _ Sh K).
    rewrite (T KeyExample), (T KeyExamples), (T KeyEnum), (T KeyRequired) by (cbn; tauto).
    destruct (String.eqb (value k) KeyExample).
    { destruct (has_example (b_kind b)); [|reflexivity]. destruct (read_ex (b_kind b) v); reflexivity. }
    destruct (String.eqb (value k) KeyExamples); [destruct (read_examples (b_kind b) (c_examples c) v); reflexivity|].
    destruct (String.eqb (value k) KeyEnum); [destruct (read_enum (b_kind b) (c_enum c) v); reflexivity|].
    destruct (String.eqb (value k) KeyRequired); [cbn [x_required]; destruct (run_assign (as_bool v (x_required x))); reflexivity|].
    destruct (spec_assign hat s (value k) v) as [q|]; [destruct q; reflexivity|].
    unfold ext_assign. rewrite value_free, same_string. rewrite (T KeyDisplayName), (T KeyDescription), (T KeyFacets), (T KeyXML) by (cbn; tauto). cbn [x_display x_descr x_anns x_xml x_required].
    destruct (String.eqb (value k) KeyDisplayName); [destruct (run_assign (as_string_ptr v (x_display x))); reflexivity|].
    destruct (String.eqb (value k) KeyDescription); [destruct (run_assign (as_string_ptr v (x_descr x))); reflexivity|].
    destruct (String.eqb (value k) KeyFacets); [destruct (read_facets hat f v); reflexivity|].
    destruct (String.eqb (value k) KeyXML); [destruct (xml_unmarshal v new_xml); reflexivity|].
    rewrite anns_free, base_free. destruct (is_string k).
    - destruct (annotations_in (value k) v (x_anns x)) as [[a|]| |]; cbn [bind map_result option_map]; try reflexivity. destruct (base_assign b k v); reflexivity.
    - cbn [bind]. destruct (base_assign b k v); reflexivity.
  Qed.

  Lemma free_fold l : forall d, shaped d -> d_kind d = kd -> fold_res (type_assign hat) (rename_rest g d) (map (fun e => (rename_value g (fst e), snd e)) l) = map_result (rename_rest g) (fold_res (type_assign hat) d l).
  Proof.
    induction l as [|e l IH]; intros d Sh K; [reflexivity|]. cbn [map fold_res]. rewrite free_step by assumption.
    destruct (type_assign hat d e) as [d1| |] eqn:E; cbn [map_result bind]; try reflexivity. apply assign_kind in E as [K1 S].
    apply IH; [|congruence]. unfold shaped in *. rewrite K1. eapply same_shape_trans; eassumption.
  Qed.
  Lemma sift_free l : sift_type (map (fun e => (rename_value g (fst e), snd e)) l) = sift_type l.
  Proof.
    unfold sift_type. assert (E : forall p i, sift_scan (map (fun e => (rename_value g (fst e), snd e)) l) p i = sift_scan l p i).
    { induction l as [|[a v] l IH]; intros p i; [reflexivity|]. cbn [map sift_scan fst snd]. rewrite value_free, !g_test by (cbn; tauto). rewrite IH. reflexivity. }
    rewrite E. reflexivity.
  Qed.
  Lemma new_free s k : rename_rest g (set_schema s (new_type k)) = set_schema s (new_type k).
  Proof. destruct k; reflexivity. Qed.

  Lemma hat_free n : (forall d, hat n = Ok d -> d_kind d = kd) -> (exists d, hat n = Ok d) -> hat (rename_free g n) = map_result (rename_rest g) (hat n).
  Proof.
    intros K [d Hd]. specialize (K d Hd). destruct (is_string n) eqn:Es.
    { rewrite Hd. assert (E : hat n = Ok (set_schema (value n) (new_type (kind_of (value n))))).
      { rewrite hat_eq. unfold hat_body. rewrite Es, type_to_kind_eq. reflexivity. }
      assert (E2 : hat (rename_free g n) = hat n).
      { rewrite !hat_eq. unfold hat_body. destruct n as [t s|t l|t l]; cbn [rename_free]; unfold is_string in *; cbn [node_tag] in *; rewrite ?Es; reflexivity. }
      rewrite E2, <- Hd, E. cbn [map_result]. rewrite new_free. reflexivity. }
    destruct n as [t s|t l|t l].
    - cbn [rename_free]. rewrite Hd. rewrite hat_eq in Hd. unfold hat_body in Hd. rewrite Es in Hd. destruct t; try discriminate Hd. injection Hd as <-. reflexivity.
    - rewrite hat_eq in Hd. unfold hat_body in Hd. rewrite Es in Hd. discriminate Hd.
    - assert (E : forall l', hat (Map t l') = bind (sift_type l') (fun d => fold_res (type_assign hat) d l')).
      { intros l'. rewrite hat_eq. unfold hat_body. unfold is_string in *. cbn [node_tag] in *. rewrite Es. reflexivity. }
      cbn [rename_free]. rewrite !E, sift_free. rewrite E in Hd. destruct (sift_type l) as [d0| |] eqn:E0; cbn [bind] in *; try discriminate Hd.
      destruct (sift_start _ _ E0) as [k [s Hs]]. pose proof (fold_kind _ _ _ _ Hd) as [K0 _].
      rewrite <- free_fold; [rewrite Hs, new_free; reflexivity|rewrite Hs; apply shaped_set_schema, shaped_new|congruence].
  Qed.

  (** ** Saving *)
  Definition topf (e : gkey * res node) : gkey * res node := (rename_gkey g (fst e), snd e).
  Lemma free_put k v o o' : o' = map topf o -> oput (rename_gkey g k) v o' = map topf (oput k v o).
  Proof. intros ->. apply sput_free. Qed.
  Lemma free_put_kept w v o o' : In w (known_keys kd) -> o' = map topf o -> oput (KStr w) v o' = map topf (oput (KStr w) v o).
  Proof. intros H E. rewrite <- (free_put _ v o o' E). cbn [rename_gkey]. rewrite g_known by (do 3 right; exact H). reflexivity. Qed.
  Lemma free_opt w v o o' : In w (known_keys kd) -> o' = map topf o -> oput_opt (KStr w) v o' = map topf (oput_opt (KStr w) v o).
  Proof. intros H E. destruct v; [apply free_put_kept; assumption|exact E]. Qed.
  Lemma free_if c w v o o' : In w (known_keys kd) -> o' = map topf o -> oput_if c (KStr w) v o' = map topf (oput_if c (KStr w) v o).
  Proof. intros H E. destruct c; [apply free_put_kept; assumption|exact E]. Qed.
  Lemma free_all (vf : gval -> res node) m : forall o o', o' = map topf o -> oput_all (fun k => k) vf (ents (rename_extra g m)) o' = map topf (oput_all (fun k => k) vf (ents m) o).
  Proof. cbn [rename_extra ents]. induction (ents m) as [|e l IH]; intros o o' E; [exact E|]. cbn. apply IH. apply free_put. exact E. Qed.
  Lemma free_marks {V} (vf : V -> res node) (m : amap string V) : forall o o', o' = map topf o -> oput_all KStr vf (ents (rename_map g m)) o' = map topf (oput_all KStr vf (ents m) o).
  Proof. cbn [rename_map ents]. induction (ents m) as [|e l IH]; intros o o' E; [exact E|]. cbn. apply IH. apply (free_put (KStr (fst e))). exact E. Qed.

  Lemma type_known : In "type"%string (known_keys kd).
  Proof. destruct kd; cbn; tauto. Qed.

  Definition com_def (d : dtype) : option gval := match d with TBase _ => None | TExt _ _ _ c _ => c_def c end.

  Lemma free_out d : shaped d -> d_kind d = kd -> com_def d = None -> type_marshal to_yaml (rename_rest g d) [] = map topf (type_marshal to_yaml d []).
  Proof.
    intros Sh K Cd. destruct d as [b|b x f c s].
    { cbn [rename_rest type_marshal]. unfold short_marshal, include_marshal, base_marshal. cbn [rename_base b_kind b_schema b_extra]. cbv zeta.
      destruct (b_kind b); apply free_all; apply free_put_kept; first [exact type_known | reflexivity]. }
    change (d_kind (TExt b x f c s)) with (b_kind b) in K. pose proof (common_known _ _ _ _ _ Sh K) as Ck. cbn [com_def] in Cd.
    cbn [rename_rest type_marshal]. unfold full_marshal. cbv zeta. rewrite Cd. cbn [option_map oput_opt].
    apply free_if; [apply Ck; cbn; tauto|]. do 2 (apply free_opt; [apply Ck; cbn; tauto|]).
    assert (X : ext_marshal to_yaml (rename_base g b) (mkExt (x_display x) (x_descr x) (rename_map g (x_anns x)) (x_xml x) (x_required x)) f [] = map topf (ext_marshal to_yaml b x f [])).
    { unfold ext_marshal. cbv zeta. cbn [x_display x_descr x_anns x_xml x_required]. apply free_opt; [apply Ck; cbn; tauto|]. apply free_if; [apply Ck; cbn; tauto|]. apply free_marks.
      apply free_if; [apply Ck; cbn; tauto|]. unfold base_marshal. cbn [rename_base b_schema b_extra]. cbv zeta. apply free_all. apply free_put_kept; [exact type_known|].
      do 2 (apply free_opt; [apply Ck; cbn; tauto|]). reflexivity. }
    revert X. generalize (ext_marshal to_yaml (rename_base g b) (mkExt (x_display x) (x_descr x) (rename_map g (x_anns x)) (x_xml x) (x_required x)) f []) (ext_marshal to_yaml b x f []).
    intros o' o X.
    assert (Kn : forall w, In w (map value (map (fun e => s_ e) (match s with SNone => [] | SArray _ _ _ _ => ["uniqueItems"; "minItems"; "maxItems"; "items"] | SDatetime _ => ["format"] | SFile _ _ _ => ["fileTypes"; "minLength"; "maxLength"]
        | SInteger _ _ _ _ | SNumber _ _ _ _ => ["format"; "minimum"; "maximum"; "multipleOf"] | SObject _ _ _ _ _ _ => ["additionalProperties"; "minProperties"; "maxProperties"; "discriminator"; "discriminatorValue"; "properties"]
        | SString _ _ _ => ["pattern"; "minLength"; "maxLength"] end)%string)) -> In w (known_keys kd)).
    { unfold shaped, d_kind in Sh. cbn [d_base] in Sh. rewrite K in Sh. clear - Sh. intros w Hw. destruct kd; cbn in Sh; try discriminate Sh; destruct s; try discriminate Sh; cbn in Hw |- *; tauto. }
    destruct s; cbn [spec_marshal]; cbv zeta; repeat first [exact X | apply free_opt; [apply Kn; cbn; tauto|] | apply free_if; [apply Kn; cbn; tauto|]].
  Qed.

  Definition stringy (e : gkey * gval) : Prop := exists s, fst e = KStr s.
  Lemma inv_step d e d' : com_def d = None -> Forall stringy (ents (b_extra (d_base d))) -> type_assign hat d e = Ok d' -> com_def d' = None /\ Forall stringy (ents (b_extra (d_base d'))).
  Proof.
    intros Cd Cx H. destruct e as [k v].
    assert (B : forall b b', Forall stringy (ents (b_extra b)) -> base_assign b k v = Ok b' -> Forall stringy (ents (b_extra b'))).
    { intros b b' Hb E. unfold base_assign in E. destruct (_ || _); [destruct (to_str v); cbn [bind] in E; try discriminate E; injection E as <-; exact Hb|].
      injection E as <-. cbn [b_extra]. apply (kput_all (fun q => exists s, q = KStr s)); [eauto|exact Hb]. }
    destruct d as [b|b x f c s].
    { cbn [type_assign fst snd] in H. destruct (base_assign b k v) as [b'| |] eqn:Eb; cbn [bind] in H; try discriminate H. injection H as <-. split; [reflexivity|]. exact (B _ _ Cx Eb). }
    unfold type_assign in H. cbn [fst snd] in H. cbn [com_def d_base] in *.
    destruct (String.eqb (value k) KeyExample).
    { destruct (has_example (b_kind b)); [|discriminate H]. destruct (read_ex (b_kind b) v); cbn [bind] in H; try discriminate H. injection H as <-. split; assumption. }
    do 3 (match type of H with (if ?q then _ else _) = _ => destruct q end; [match type of H with bind ?y _ = _ => destruct y; cbn [bind] in H; try discriminate H end; injection H as <-; split; assumption|]).
    destruct (spec_assign hat s (value k) v) as [q|]; [destruct q; cbn [bind] in H; try discriminate H; injection H as <-; split; assumption|].
    destruct (ext_assign hat b x f k v) as [[[b' x'] f']| |] eqn:Ee; cbn [bind] in H; try discriminate H. injection H as <-. cbn [com_def d_base]. split; [exact Cd|].
    unfold ext_assign in Ee.
    repeat match type of Ee with (if ?q then bind ?y _ else _) = _ => destruct q; [destruct y; cbn [bind] in Ee; try discriminate Ee; injection Ee as <- <- <-; exact Cx|] end.
    destruct (if is_string k then annotations_in (value k) v (x_anns x) else Ok None) as [[a|]| |]; cbn [bind] in Ee; try discriminate Ee.
    - injection Ee as <- <- <-. exact Cx.
    - destruct (base_assign b k v) as [b1| |] eqn:Eb; cbn [bind] in Ee; try discriminate Ee. injection Ee as <- <- <-. exact (B _ _ Cx Eb).
  Qed.
  Lemma inv_fold l : forall d d', com_def d = None -> Forall stringy (ents (b_extra (d_base d))) -> fold_res (type_assign hat) d l = Ok d' -> com_def d' = None /\ Forall stringy (ents (b_extra (d_base d'))).
  Proof.
    induction l as [|e l IH]; intros d d' Cd Cx H; cbn [fold_res] in H; [injection H as <-; split; assumption|].
    destruct (type_assign hat d e) as [d1| |] eqn:E; cbn [bind] in H; try discriminate H. destruct (inv_step _ _ _ Cd Cx E) as [A B]. exact (IH _ _ A B H).
  Qed.
  Lemma inv_new s k : com_def (set_schema s (new_type k)) = None /\ Forall stringy (ents (b_extra (d_base (set_schema s (new_type k))))).
  Proof. destruct k; cbn; (split; [reflexivity|constructor]). Qed.
  Lemma inv_hat n d : hat n = Ok d -> com_def d = None /\ Forall stringy (ents (b_extra (d_base d))).
  Proof.
    rewrite hat_eq. unfold hat_body. destruct (is_string n).
    - intros H; injection H as <-. rewrite type_to_kind_eq. apply inv_new.
    - destruct n as [t v|t l|t l].
      + destruct t; try discriminate. intros H; injection H as <-. exact (inv_new _ TyInclude).
      + discriminate.
      + intros H. apply bind_ok in H as [d0 [H0 H]]. apply sift_start in H0 as [k [s ->]]. destruct (inv_new s k) as [A B]. exact (inv_fold _ _ _ A B H).
  Qed.

  Definition str_key (e : gkey * res node) : Prop := exists s, fst e = KStr s.
  Lemma opt_str k v : Forall str_key (opt_seg k v).
  Proof. destruct v; constructor; [eexists; reflexivity|constructor]. Qed.
  Lemma if_str c k v : Forall str_key (if_seg c k v).
  Proof. destruct c; constructor; [eexists; reflexivity|constructor]. Qed.
  Lemma segs_str n d : hat n = Ok d -> Forall str_key (segs to_yaml d).
  Proof.
    intros H. destruct (inv_hat n d H) as [_ Cx].
    assert (X : Forall str_key (extra_segs (d_base d))).
    { unfold extra_segs, all_seg. clear - Cx. induction Cx as [|e l [s He] Hl IH]; constructor; [exists s; exact He|exact IH]. }
    assert (A : forall m, Forall str_key (all_seg KStr untyped_to_yaml m)).
    { unfold all_seg. induction m as [|e l IH]; constructor; [eexists; reflexivity|exact IH]. }
    unfold segs. destruct d as [b|b x f c s]; cbn [head_segs required_seg ann_segs tail_segs app].
    { rewrite app_nil_r. constructor; [eexists; reflexivity|exact X]. }
    repeat first [apply Forall_app; split | apply opt_str | apply if_str | apply A | exact X | constructor; [eexists; reflexivity|]].
    destruct s; cbn [spec_segs]; repeat first [apply Forall_app; split | apply opt_str | apply if_str | constructor].
  Qed.

  Lemma free_yaml o : Forall str_key o -> out_to_yaml (map topf o) = map_result (rename_free g) (out_to_yaml o).
  Proof.
    intros Ho. unfold out_to_yaml, map_to_yaml. cbn [oord ents].
    assert (E : map_res (entry_node key_node (fun r => r)) (map topf o) = map_result (map (fun e => (rename_value g (fst e), snd e))) (map_res (entry_node key_node (fun r => r)) o)).
    { induction Ho as [|[k v] o [s He] Ho IH]; [reflexivity|]. cbn [fst] in He. subst k. cbn [map map_res]. rewrite IH. clear IH.
      unfold entry_node at 1 3. unfold topf. cbn [fst snd rename_gkey key_node bind]. destruct v as [x| |]; cbn [bind map_result]; try reflexivity.
      match goal with |- context [map_res ?q o] => destruct (map_res q o) end; reflexivity. }
    rewrite E. destruct (map_res (entry_node key_node (fun r => r)) o); reflexivity.
  Qed.

  Lemma saved_free n d : hat n = Ok d -> d_kind d = kd -> to_yaml (rename_rest g d) = map_result (rename_free g) (to_yaml d).
  Proof.
    intros H K. pose proof (hat_shaped n d H) as Sh. destruct (inv_hat n d H) as [Cd _]. rewrite !TypeFacts.to_yaml_eq. unfold to_yaml_body. rewrite free_out by assumption.
    assert (P : Forall plain_type (type_marshal to_yaml d []) /\ Forall str_key (type_marshal to_yaml d [])).
    { rewrite type_marshal_segs by exact (kinds_out n d H). split; apply Forall_forall; intros e He; apply puts_keys in He as [He|[]].
      - pose proof (segs_plain n d H) as S. rewrite Forall_forall in S. exact (S e He).
      - pose proof (segs_str n d H) as S. rewrite Forall_forall in S. exact (S e He). }
    revert P. generalize (type_marshal to_yaml d []). intros o [P Q].
    unfold short_or_full. assert (Es : is_short (map topf o) = is_short o).
    { unfold is_short. rewrite map_length. f_equal. unfold shas. clear - fr. induction o as [|e o IH]; [reflexivity|]. cbn [map existsb]. rewrite IH. f_equal. unfold topf. cbn [fst].
      rewrite <- (gk_eq (fst e) (KStr KeyType)). cbn [rename_gkey]. rewrite g_known by (do 3 right; exact type_known). reflexivity. }
    rewrite Es. destruct (is_short o) eqn:E; [|apply free_yaml; exact Q].
    unfold is_short in E. apply Bool.andb_true_iff in E as [E1 E2]. apply Nat.eqb_eq in E1. destruct o as [|[k v] [|e' o]]; try discriminate E1.
    unfold shas in E2. cbn [existsb fst] in E2. rewrite Bool.orb_false_r in E2.
    assert (Ek : k = KStr "type") by (destruct k; try discriminate E2; cbn in E2; apply String.eqb_eq in E2; congruence).
    subst k. inversion P as [|? ? P1 _]; subst. destruct (P1 eq_refl) as [t [s Er]]. cbn [snd] in Er. subst v. cbn [map]. unfold topf. cbn [fst snd rename_gkey].
    rewrite g_known by (do 3 right; exact type_known). reflexivity.
  Qed.
End Facts.

(** C110.  Reading: the definition with other names for its annotations and unknown facets is read too, as the same object with these names, in the same order. *)
Theorem C110_read (F : FloatIO) r n d : hat n = Ok d -> fair_for (d_kind d) r ->
  hat (rename_free (free_other (d_kind d) r) n) = Ok (rename_rest (free_other (d_kind d) r) d).
Proof.
  intros H fr. rewrite (hat_free (d_kind d) r fr n); [rewrite H; reflexivity| |eauto]. intros d' H'. rewrite H in H'. injection H' as <-. reflexivity.
Qed.
Print Assumptions C110_read.

(** Saving. *)
Theorem C110_saved (F : FloatIO) r n d d' : hat n = Ok d -> fair_for (d_kind d) r ->
  hat (rename_free (free_other (d_kind d) r) n) = Ok d' ->
  d_kind d' = d_kind d /\ to_yaml d' = map_result (rename_free (free_other (d_kind d) r)) (to_yaml d).
Proof.
  intros H fr H'. rewrite (C110_read F r n d H fr) in H'. injection H' as <-. split; [destruct d; reflexivity|]. exact (saved_free (d_kind d) r fr n d H eq_refl).
Qed.
Print Assumptions C110_saved.

(** Two annotations change places, and an unknown facet gets another name. *)
Definition swapped_marks : string -> string := fun x => call_it "(a)" "(b)" (call_it "unit" "measure" x).
Definition a_length : node := m_ [(s_ "unit", s_ "cm"); (s_ "type", s_ "number"); (s_ "(b)", m_ [(s_ "v", s_ "1")]); (s_ "minimum", Scal TInt "1"); (s_ "(a)", m_ [(s_ "v", s_ "2")]); (s_ "x", s_ "y")].
Example C110_case : let _ := {| float_of := fun _ s => Some S754_nan; float_text := fun _ => (TFloat, "1.0"%string) |} in
  fair_for TyNumber swapped_marks /\
  exists d d', hat a_length = Ok d /\ d_kind d = TyNumber /\ hat (rename_free (free_other TyNumber swapped_marks) a_length) = Ok d' /\
    to_yaml d = Ok (m_ [(s_ "type", s_ "number"); (s_ "unit", s_ "cm"); (s_ "x", s_ "y"); (s_ "(b)", Seq TOMap [m_ [(s_ "v", s_ "1")]]); (s_ "(a)", Seq TOMap [m_ [(s_ "v", s_ "2")]]); (s_ "minimum", Scal TFloat "1.0")]) /\
    to_yaml d' = Ok (m_ [(s_ "type", s_ "number"); (s_ "measure", s_ "cm"); (s_ "x", s_ "y"); (s_ "(a)", Seq TOMap [m_ [(s_ "v", s_ "1")]]); (s_ "(b)", Seq TOMap [m_ [(s_ "v", s_ "2")]]); (s_ "minimum", Scal TFloat "1.0")]).
Proof.
  cbv zeta. split.
  - split; [intros a b H; apply call_it_inj in H; apply call_it_inj in H; exact H|]. intros s H. unfold swapped_marks, call_it.
    destruct (String.eqb s "unit") eqn:E1; [apply String.eqb_eq in E1; subst s; split; reflexivity|].
    destruct (String.eqb s "measure") eqn:E2; [apply String.eqb_eq in E2; subst s; split; reflexivity|].
    destruct (String.eqb s "(a)") eqn:E3; [apply String.eqb_eq in E3; subst s; split; reflexivity|].
    destruct (String.eqb s "(b)") eqn:E4; [apply String.eqb_eq in E4; subst s; split; reflexivity|]. split; [exact H|reflexivity].
  - do 2 eexists. split; [vm_compute; reflexivity|]. split; [reflexivity|]. split; [vm_compute; reflexivity|]. split; vm_compute; reflexivity.
Qed.
