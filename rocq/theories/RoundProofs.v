(** C31: type definitions written and read. *)
From Coq Require Import SpecFloat.
From Verif Require Import Base Num OMap OMapSpec Keys Yaml Values Assign Formats Meta Out Xml Example DataType Marshal
  AssignProofs TypeFacts Fields FieldProofs FacetSpec FacetProofs DocProofs OrderProofs PathProofs TypeWrite Segs ExProofs Same ExRound TypeSegs WriteSpec WriteProofs
  RoundSpec.

Section Round.
  Context {F : FloatIO}.

  Definition field_returns_mono (P Q : dtype -> Prop) k f v (h : forall t, P t -> Q t) (H : field_returns P k f v) : field_returns Q k f v.
  Proof.
    destruct H.
    - apply ret_str.
    - apply ret_optstr.
    - apply ret_bool.
    - apply ret_int; assumption.
    - apply ret_optint; assumption.
    - apply ret_optfloat; assumption.
    - apply ret_strs.
    - apply ret_optval; assumption.
    - apply ret_vals; assumption.
    - apply ret_type. intros t E. exact (h t (H t E)).
    - apply ret_types; try assumption. intros s t E. destruct (H1 s t E) as [A B]. exact (conj (h t A) B).
    - apply ret_facets; try assumption. intros s m' s' t E E'. exact (h t (H2 s m' s' t E E')).
    - apply ret_anns; assumption.
    - apply ret_xml; assumption.
    - apply ret_ex; assumption.
    - apply ret_exs; assumption.
    - apply ret_extra; assumption.
  Defined.

  Lemma type_returns_rec (Q : dtype -> Prop) :
    (forall d, tidy d -> (d_kind d <> TyInclude -> named (d_type d) (d_kind d)) -> (d_kind d = TyInclude -> ents (d_extra d) = []) ->
       (forall f v, getf f d = Some v -> field_returns Q (d_kind d) f v) -> Q d) ->
    forall d, type_returns d -> Q d.
  Proof.
    intros step. fix IH 2. intros d H. destruct H as [d H1 H2 H3 H4]. apply step; [exact H1|exact H2|exact H3|].
    intros f v G. exact (field_returns_mono type_returns Q (d_kind d) f v IH (H4 f v G)).
  Qed.

  Definition comes_back (t : dtype) : Prop := exists n t', to_yaml t = Ok n /\ hat n = Ok t' /\ same_type t t'.

  Lemma enum_round k v : enum_returns k v -> exists n w, to_node v = Ok n /\ enum_elem k n = Ok w /\ same_of k v w.
  Proof.
    destruct k; cbn; try (intros [s ->]; eexists; eexists; repeat split; reflexivity);
      try (intros [n H]; exists n, (GNode n); repeat split; [exact H|]; apply same_value_refl; exact H).
    - intros [b ->]. exists (bool_node b), (GBool b). cbn [to_node]. rewrite to_bool_node. auto.
    - intros [z [-> Hz]]. exists (int_node z), (GInt z). cbn [to_node]. rewrite to_int_range by exact Hz. auto.
    - intros [f [-> Hf]]. exists (float_node f), (GFloat f). cbn [to_node]. apply denotes_float_iff in Hf. rewrite Hf. auto.
  Qed.

  Lemma enums_round k l : (forall v, In v l -> enum_returns k v) ->
    exists ns ws, map_res to_node l = Ok ns /\ Forall2 (same_of k) l ws /\
      forall acc, fold_res (fun acc cur => do v <- enum_elem k cur; Ok (Some (opt_list acc ++ [v]))) acc ns =
                  Ok (match ws with [] => acc | _ => Some (opt_list acc ++ ws) end).
  Proof.
    induction l as [|v l IH]; intros H.
    - exists [], []. repeat split. constructor.
    - destruct IH as [ns [ws [I1 [I2 I3]]]]; [intros; apply H; right; assumption|].
      destruct (enum_round k v (H v (or_introl eq_refl))) as [n [w [E1 [E2 E3]]]].
      exists (n :: ns), (w :: ws). cbn. rewrite E1, I1. cbn. repeat split; [constructor; assumption|].
      intros acc. rewrite E2. cbn. rewrite I3. destruct ws; cbn; [reflexivity|]. rewrite <- app_assoc. reflexivity.
  Qed.

  Lemma strs_round l : denotes_strings (Seq TSeq (map str_node l)) l.
  Proof.
    unfold denotes_strings. exists TSeq, (map str_node l). split; [reflexivity|]. induction l; cbn; constructor; auto. split; reflexivity.
  Qed.

  Lemma same_types_entry (a b : list (string * dtype)) : Forall2 (same_entry same_type) a b ->
    Forall2 (fun a b => fst a = fst b /\ same_type (snd a) (snd b)) a b.
  Proof. intros H. exact H. Qed.

  Lemma types_round m b : oord m = false -> NoDup (map fst (ents m)) -> (forall s t, In (s, t) (ents m) -> comes_back t) ->
    exists n l, types_to_yaml to_yaml m = Ok n /\ read_types hat (mkMap [] b) n = Ok (mkMap l b) /\ Forall2 (same_entry same_type) (ents m) l.
  Proof.
    intros Ho Hn Hc. destruct (write_total skey_node to_yaml m) as [n Hw].
    { intros k v Hi. split; [eexists; reflexivity|]. destruct (Hc k v Hi) as [n [t' [W _]]]. eauto. }
    destruct (write_read_amap hat to_yaml same_type b m n Ho Hn) as [l [Hr Hs]]; [|exact Hw|].
    - intros k v nv Hi E. destruct (Hc k v Hi) as [n' [t' [W [R S]]]]. rewrite W in E. injection E as <-. eauto.
    - exists n, l. auto.
  Qed.

  Lemma same_type_kind t t' : same_type t t' -> d_kind t = d_kind t'.
  Proof. intros H. destruct H. assumption. Qed.
  Lemma same_type_ext t t' : same_type t t' -> (exists b, t' = TBase b) -> exists b, t = TBase b.
  Proof.
    intros H [b E]. destruct H as [d d' H1 H2 H3]. subst d'. destruct d as [b0|b0 x fs c s]; [eauto|].
    destruct (H2 FDisplay _ eq_refl) as [w [G _]]. discriminate G.
  Qed.

  Lemma props_round m b : oord m = false -> NoDup (map fst (ents m)) ->
    (forall s t, In (s, t) (ents m) -> (comes_back t /\ shaped t) /\ d_kind t <> TyNil /\ d_kind t <> TyInclude) ->
    exists n l, types_to_yaml to_yaml m = Ok n /\ read_properties hat (mkMap [] b) n = Ok (mkMap l b) /\ Forall2 (same_entry same_type) (ents m) l.
  Proof.
    intros Ho Hn Hc. destruct (write_total skey_node to_yaml m) as [n Hw].
    { intros k v Hi. split; [eexists; reflexivity|]. destruct (Hc k v Hi) as [[[n [t' [W _]]] _] _]. eauto. }
    destruct (write_read_amap (fun v => do d <- hat v; as_property d) to_yaml same_type b m n Ho Hn) as [l [Hr Hs]]; [|exact Hw|].
    - intros k v nv Hi E. destruct (Hc k v Hi) as [[[n' [t' [W [R S]]]] Sh] [N1 N2]]. rewrite W in E. injection E as <-.
      exists t'. split; [|exact S]. rewrite R. cbn. destruct t' as [b0|]; [|reflexivity]. exfalso.
      destruct (same_type_ext v (TBase b0) S (ex_intro _ b0 eq_refl)) as [b1 ->].
      unfold shaped, d_kind in *. cbn in *. destruct (b_kind b1); try congruence; discriminate Sh.
    - exists n, l. auto.
  Qed.

  Lemma facets_round m b : oord m = false -> NoDup (map fst (ents m)) ->
    (forall s m', In (s, m') (ents m) -> oord m' = false /\ NoDup (map fst (ents m'))) ->
    (forall s m' s' t, In (s, m') (ents m) -> In (s', t) (ents m') -> comes_back t) ->
    exists n l, facets_to_yaml to_yaml m = Ok n /\ read_facets hat (mkMap [] b) n = Ok (mkMap l b) /\
      Forall2 (same_entry (same_map same_type)) (ents m) l.
  Proof.
    intros Ho Hn Hi Hc. destruct (write_total skey_node (types_to_yaml to_yaml) m) as [n Hw].
    { intros k v H. split; [eexists; reflexivity|]. destruct (Hi k v H) as [A B].
      destruct (types_round v true A B) as [n [l [W _]]]; [intros s t H'; exact (Hc k v s t H H')|]. eauto. }
    destruct (write_read_amap (read_types hat anew) (types_to_yaml to_yaml) (same_map same_type) b m n Ho Hn) as [l [Hr Hs]]; [|exact Hw|].
    - intros k v nv H E. destruct (Hi k v H) as [A B].
      destruct (types_round v true A B) as [n' [l [W [R S]]]]; [intros s t H'; exact (Hc k v s t H H')|].
      rewrite W in E. injection E as <-. eauto.
    - exists n, l. auto.
  Qed.

  Lemma exs_round k m b : oord m = false -> NoDup (map fst (ents m)) ->
    (forall s e, In (s, e) (ents m) -> more_than_value e /\ ex_returns k e) ->
    exists n l, examples_to_yaml m = Ok n /\ read_examples k (mkMap [] b) n = Ok (mkMap l b) /\ Forall2 (same_entry (same_ex k)) (ents m) l.
  Proof.
    intros Ho Hn Hc. destruct (write_total skey_node ex_to_yaml m) as [n Hw].
    { intros s v Hi. split; [eexists; reflexivity|]. destruct (Hc s v Hi) as [A B]. destruct (ex_round_trip k v A B) as [n [e' [W _]]]. eauto. }
    destruct (write_read_amap (read_ex k) ex_to_yaml (same_ex k) b m n Ho Hn) as [l [Hr Hs]]; [|exact Hw|].
    - intros s v nv Hi E. destruct (Hc s v Hi) as [A B]. destruct (ex_round_trip k v A B) as [n' [e' [W [R S]]]].
      rewrite W in E. injection E as <-. eauto.
    - exists n, l. auto.
  Qed.

  Lemma uint_round z : (0 <= z <= 2 ^ 63 - 1)%Z -> to_int (int_node z) = Ok z /\ uint_of_int64 z = z.
  Proof.
    intros H. split; [apply to_int_range; lia|]. apply uint_in_range; lia.
  Qed.

  (** One field. *)
  Lemma written_round k f v : same_sort v (default_value k f) = true -> f <> FType -> f <> FExtra -> f <> FAnns ->
    field_returns (fun t => comes_back t /\ shaped t) k f v ->
    match written to_yaml k f v with
    | None => same_fval same_type k v (default_value k f)
    | Some r => f <> FDefault /\ exists n w, r = Ok n /\ (forall key, step hat k f key n (default_value k f) = Ok w) /\ same_fval same_type k v w
    end.
  Proof.
    intros S N1 N2 N3 H. destruct H as [s|o|b|z Hz|o Ho|o Ho|o|o Ho|o Ho|o Ho|m M1 M2 M3|m M1 M2 M3 M4|m M1|o Ho|o Ho|m M1 M2 M3|m M1]; cbn [written].
    - destruct f; cbn in S; destruct k; try discriminate S; congruence.
    - destruct o as [s|]; cbn.
      + assert (E : match f with FDisplay | FDescr | FDiscr | FPattern | FFormat => True | _ => False end)
          by (destruct f; cbn in S; destruct k; try discriminate S; exact I).
        split; [destruct f; congruence|]. eexists; eexists. split; [reflexivity|]. split; [|apply same_equal].
        intros key. destruct f; try destruct E; reflexivity.
      + destruct f; cbn in S; destruct k; try discriminate S; apply same_equal.
    - assert (E : match f with FRequired | FUnique | FAddl => True | _ => False end)
          by (destruct f; cbn in S; destruct k; try discriminate S; exact I).
      destruct (is_default k f (VBool b)) eqn:D.
      + destruct f; try destruct E; cbn in D; destruct b; try discriminate D; apply same_equal.
      + split; [destruct f; congruence|]. exists (bool_node b), (VBool b). split; [reflexivity|]. split; [|apply same_equal].
        intros key. destruct f; try destruct E; cbn [step default_value]; rewrite to_bool_node; reflexivity.
    - assert (E : match f with FMinItems | FMaxItems | FMinLength | FMaxLength => True | _ => False end)
          by (destruct f; cbn in S; destruct k; try discriminate S; exact I).
      match goal with |- match (if ?c then _ else _) with _ => _ end => destruct c eqn:D end.
      + assert (W : default_value k f = VInt z).
        { destruct f; try destruct E; destruct k; try discriminate S; cbn [is_default default_value] in D |- *;
            try (apply Z.eqb_eq in D; congruence); apply negb_true_iff, Z.ltb_ge in D; f_equal; lia. }
        rewrite W. apply same_equal.
      + split; [destruct f; congruence|]. exists (int_node z), (VInt z). split; [reflexivity|]. split; [|apply same_equal].
        intros key. destruct (uint_round z Hz) as [U1 U2].
        destruct f; try destruct E; destruct k; try discriminate S; cbn [step default_value]; rewrite U1; cbn [bind]; rewrite U2; reflexivity.
    - destruct o as [z|]; cbn [int_opt option_map].
      + destruct (Ho z eq_refl) as [R1 R2]. split; [destruct f; try discriminate S; congruence|]. exists (int_node z), (VOptInt (Some z)).
        split; [reflexivity|]. split; [|apply same_equal]. intros key. pose proof (to_int_range z R1) as U1.
        destruct f; try discriminate S; destruct k; try discriminate S; cbn [step default_value]; rewrite U1; cbn [bind]; try reflexivity;
          (rewrite (proj2 (uint_in_range z R1)) by (apply R2; reflexivity)); reflexivity.
      + destruct f; cbn in S; destruct k; try discriminate S; apply same_equal.
    - destruct o as [z|]; cbn [float_opt option_map].
      + pose proof (Ho z eq_refl) as R1. apply denotes_float_iff in R1. split; [destruct f; try discriminate S; congruence|].
        exists (float_node z), (VOptFloat (Some z)). split; [reflexivity|]. split; [|apply same_equal]. intros key.
        destruct f; try discriminate S; destruct k; try discriminate S; cbn [step default_value]; rewrite R1; reflexivity.
      + destruct f; cbn in S; destruct k; try discriminate S; apply same_equal.
    - destruct f; try discriminate S; try (destruct k; discriminate S). destruct o as [l|]; cbn [option_map]; [|apply same_equal].
      split; [discriminate|]. exists (Seq TSeq (map str_node l)), (VStrs (Some l)). split; [reflexivity|]. split; [|apply same_equal].
      intros key. cbn [step default_value].
      destruct (as_string_list_all (Seq TSeq (map str_node l)) None) as [[a [A1 A2]]|[A1 _]]; [|destruct (A1 l (strs_round l))].
      rewrite A2. cbn. assert (a = l); [|congruence].
      destruct A1 as [t [ns [E A1]]]. injection E as _ <-. apply (Forall2_fun denotes_string (map str_node l)); [exact denotes_string_fun|exact A1|].
      destruct (strs_round l) as [t' [ns' [E' A3]]]. injection E' as _ <-. exact A3.
    - destruct o as [v|]; cbn [option_map].
      + destruct (Ho v eq_refl) as [R1 [n R2]]. split; [exact R1|]. exists n, (VOptVal (Some (GNode n))). split; [exact R2|]. split.
        * intros key. destruct f; try discriminate S; try congruence; try (destruct k; discriminate S). reflexivity.
        * apply same_val. apply same_value_refl. exact R2.
      + destruct f; try discriminate S; try (destruct k; discriminate S); apply same_equal.
    - destruct f; try discriminate S; try (destruct k; discriminate S). destruct o as [l|]; cbn [option_map]; [|apply same_equal].
      split; [discriminate|]. destruct (enums_round k l Ho) as [ns [ws [E1 [E2 E3]]]].
      eexists; eexists. split; [cbn; rewrite E1; reflexivity|]. split.
      + intros key. cbn [step default_value]. unfold read_enum, seq_fold. rewrite E3. reflexivity.
      + apply same_vals. cbn [opt_list]. destruct ws; cbn; exact E2.
    - destruct f; try discriminate S; try (destruct k; discriminate S). destruct o as [t|]; cbn [option_map]; [|apply same_equal].
      split; [discriminate|]. destruct (Ho t eq_refl) as [[n [t' [W [R Sm]]]] _].
      exists n, (VOptType (Some t')). split; [exact W|]. split; [|apply same_item; exact Sm].
      intros key. cbn [step]. rewrite R. reflexivity.
    - destruct f; try discriminate S; try (destruct k; discriminate S). unfold nonempty.
      destruct (ents m) as [|e r] eqn:Em; [apply same_types; rewrite Em; constructor|]. rewrite <- Em in M1, M2, M3.
      destruct (props_round m false (M1 ltac:(rewrite Em; discriminate)) M2 M3) as [n [l [W [R Sm]]]].
      split; [discriminate|]. exists n, (VTypes (mkMap l false)). split; [exact W|]. split.
      + intros key. cbn [step default_value]. rewrite R. reflexivity.
      + apply same_types. exact Sm.
    - destruct f; try discriminate S; try (destruct k; discriminate S). unfold nonempty.
      destruct (ents m) as [|e r] eqn:Em; [apply same_facets; rewrite Em; constructor|].
      assert (M1' : oord m = false) by (apply M1; discriminate).
      destruct (facets_round m true) as [n [l [W [R Sm]]]]; [exact M1'|rewrite Em; exact M2|rewrite Em; exact M3| |].
      { rewrite Em. intros s m' s' t I1 I2. exact (proj1 (M4 s m' s' t I1 I2)). }
      split; [discriminate|]. exists n, (VFacets (mkMap l true)). split; [exact W|]. split.
      + intros key. cbn [step default_value]. rewrite R. reflexivity.
      + apply same_facets. exact Sm.
    - destruct f; try discriminate S; try congruence; destruct k; discriminate S.
    - destruct f; try discriminate S; try (destruct k; discriminate S). destruct o as [x|]; cbn [option_map]; [|apply same_equal].
      rewrite (Ho x eq_refl). split; [discriminate|]. eexists; eexists. split; [reflexivity|]. split; [intros key; reflexivity|apply same_equal].
    - destruct f; try discriminate S; try (destruct k; discriminate S). destruct o as [x|]; cbn [option_map]; [|apply same_equal].
      destruct (Ho x eq_refl) as [E1 [E2 E3]]. destruct (ex_round_trip k x E2 E3) as [n [e' [W [R Sm]]]].
      split; [discriminate|]. exists n, (VEx (Some e')). split; [exact W|]. split; [|apply same_one_ex; exact Sm].
      intros key. cbn [step]. rewrite E1, R. reflexivity.
    - destruct f; try discriminate S; try (destruct k; discriminate S). unfold nonempty.
      destruct (ents m) as [|e r] eqn:Em; [apply same_exs; unfold same_map; rewrite Em; constructor|]. rewrite <- Em in M1, M2, M3.
      destruct (exs_round k m false (M1 ltac:(rewrite Em; discriminate)) M2 M3) as [n [l [W [R Sm]]]].
      split; [discriminate|]. exists n, (VExs (mkMap l false)). split; [exact W|]. split.
      + intros key. cbn [step default_value]. rewrite R. reflexivity.
      + apply same_exs. unfold same_map. exact Sm.
    - destruct f; try discriminate S; try congruence; destruct k; discriminate S.
  Qed.

  Lemma start_field d f v s : shaped d -> getf f d = Some v -> f <> FType ->
    getf f (set_schema s (new_type (d_kind d))) = Some (default_value (d_kind d) f).
  Proof.
    intros Hs G N. destruct d as [b|b x fs c p].
    - unfold shaped, d_kind in *. cbn in Hs |- *. destruct f; try discriminate G; try congruence.
      destruct (b_kind b); try discriminate Hs; reflexivity.
    - destruct (shaped_cases b x fs c p Hs) as [N1 [N2 H]]. unfold d_kind. cbn [d_base].
      destruct (b_kind b); try congruence; destruct p; try discriminate H; destruct f; try discriminate G; try congruence; reflexivity.
  Qed.

  Lemma facet_in d f v : shaped d -> getf f d = Some v -> f <> FType -> f <> FExtra -> f <> FAnns -> f <> FDefault ->
    In f (facets_of (d_kind d)) /\ facet_key f = Some (written_key f).
  Proof.
    intros Hs G M1 M2 M3 M4. split; [|destruct f; congruence || reflexivity]. destruct d as [b|b x fs c p].
    - unfold shaped, d_kind in *. cbn in Hs |- *. destruct f; try discriminate G; congruence.
    - destruct (shaped_cases b x fs c p Hs) as [N1 [N2 H]]. unfold d_kind. cbn [d_base].
      destruct (b_kind b); try congruence; destruct p; try discriminate H; destruct f; try discriminate G; try congruence; cbn; tauto.
  Qed.

  Lemma known_no_paren k s : In s (known_keys k) -> starts_paren s = false.
  Proof. destruct k; cbn; intros H; repeat destruct H as [<-|H]; try reflexivity; destruct H. Qed.

  Lemma extras_round kd d0 (m : amap gkey gval) : shaped d0 -> d_kind d0 = kd -> apart (map fst (ents m)) = true ->
    (forall a v, In (a, v) (ents m) -> exists s n, a = KStr s /\ to_node v = Ok n /\ (kd <> TyNil -> s <> "" /\ starts_paren s = false) /\ ~ In s (known_keys kd)) ->
    exists lf w, Forall2 wrote (all_seg (fun k => k) to_node (ents m)) lf /\ (forall e, In e lf -> aims d0 FExtra e = true) /\
      fold_res (stepper hat kd FExtra) (VExtra (mkMap [] true)) lf = Ok (VExtra w) /\ same_map same_value m w.
  Proof.
    intros Hs Hk Ha Hx.
    assert (G : exists lf, Forall2 wrote (all_seg (fun k => k) to_node (ents m)) lf /\
       Forall2 (fun e p => exists s, fst e = KStr s /\ fst p = str_node s /\ to_node (snd e) = Ok (snd p) /\ (kd <> TyNil -> s <> "" /\ starts_paren s = false) /\ ~ In s (known_keys kd)) (ents m) lf).
    { clear Ha. induction (ents m) as [|[a v] r IH]; [exists []; split; constructor|].
      destruct IH as [lf [I1 I2]]; [intros; apply Hx; right; assumption|].
      destruct (Hx a v (or_introl eq_refl)) as [s [n [-> [E1 E2]]]]. exists ((str_node s, n) :: lf). cbn.
      split; constructor; auto; [split; [reflexivity|exact E1]|]. exists s. destruct E2 as [E2 E3]. split; [reflexivity|]. split; [reflexivity|]. auto. }
    destruct G as [lf [W Q]].
    exists lf. eexists. split; [exact W|]. split; [|split].
    - intros e He. assert (X : exists s, fst e = str_node s /\ (kd <> TyNil -> s <> "" /\ starts_paren s = false) /\ ~ In s (known_keys kd)).
      { clear -He Q. induction Q as [|a p l l' [s [_ [P2 [_ P3]]]] _ IH]; [destruct He|]. destruct He as [<-|He]; [exists s; tauto|auto]. }
      destruct X as [s [Es [X1 X3]]]. unfold aims. rewrite Es. rewrite target_unknown; [|exact Hs|rewrite Hk; exact X3].
      destruct d0 as [b|b x fs c p]; [reflexivity|]. destruct (shaped_cases b x fs c p Hs) as [M1 _].
      destruct X1 as [X1 X2]; [rewrite <- Hk; exact M1|]. unfold is_annotation_key. cbn [is_string str_node node_tag value andb].
      change (match s with EmptyString => false | String c _ => Ascii.eqb c "(" end) with (starts_paren s). rewrite X2.
      destruct (String.eqb_spec s ""); [congruence|reflexivity].
    - apply fold_extra.
    - assert (E : map (fun e => KStr (value (fst e))) lf = map fst (ents m)).
      { clear -Q. induction Q as [|a p l l' [s [P1 [P2 _]]] _ IH]; [reflexivity|]. cbn. rewrite IH, P1, P2. reflexivity. }
      assert (Nd : NoDup (map (fun e => value (fst e)) lf)).
      { apply apart_strings. rewrite map_map. rewrite E. exact Ha. }
      rewrite put_extra_fresh by exact Nd. unfold same_map. cbn [ents]. clear -Q.
      induction Q as [|a p l l' [s [P1 [P2 [P3 _]]]] _ IH]; cbn; constructor; [|exact IH].
      split; cbn; [rewrite P1, P2; reflexivity|apply same_value_refl; exact P3].
  Qed.

  Lemma anns_round kd d0 (m : amap string untyped) : shaped d0 -> d_kind d0 = kd -> (exists b x fs c p, d0 = TExt b x fs c p) ->
    NoDup (map fst (ents m)) ->
    (forall s a, In (s, a) (ents m) -> starts_paren s = true /\ ann_returns a) ->
    exists lf w, Forall2 wrote (all_seg KStr untyped_to_yaml (ents m)) lf /\ (forall e, In e lf -> aims d0 FAnns e = true) /\
      fold_res (stepper hat kd FAnns) (VAnns (mkMap [] true)) lf = Ok (VAnns w) /\ same_map (same_map same_value) m w.
  Proof.
    intros Hs Hk Hd Hn Hx.
    assert (G : exists lf kvs, Forall2 wrote (all_seg KStr untyped_to_yaml (ents m)) lf /\
       Forall (fun p => exists s, fst p = str_node s /\ starts_paren s = true) lf /\
       Forall2 ann_entry lf kvs /\ Forall2 (same_entry (same_map same_value)) (ents m) kvs).
    { clear Hn. induction (ents m) as [|[a v] r IH]; [exists [], []; repeat split; constructor|].
      destruct IH as [lf [kvs [I1 [I2 [I3 I4]]]]]; [intros; apply Hx; right; assumption|].
      destruct (Hx a v (or_introl eq_refl)) as [P1 P2]. destruct (ann_written v P2) as [n [a' [W [R Sm]]]].
      exists ((str_node a, n) :: lf), ((a, a') :: kvs). cbn. repeat split; constructor; auto.
      - split; [reflexivity|exact W].
      - exists a. cbn. auto.
      - split; [reflexivity|exact R].
      - split; [reflexivity|exact Sm]. }
    destruct G as [lf [kvs [W [Q [A Sm]]]]]. exists lf, (mputs kvs (mkMap [] true)). split; [exact W|]. split; [|split].
    - intros e He. rewrite Forall_forall in Q. destruct (Q e He) as [s [Es P]]. unfold aims. rewrite Es.
      rewrite target_unknown; [|exact Hs|cbn; intros Hi; apply known_no_paren in Hi; congruence].
      destruct Hd as [b [x [fs [c [p ->]]]]]. unfold is_annotation_key. cbn [is_string str_node node_tag value andb].
      change (match s with EmptyString => false | String c _ => Ascii.eqb c "(" end) with (starts_paren s). rewrite P. reflexivity.
    - apply fold_anns. exists kvs. auto.
    - assert (E : map fst kvs = map fst (ents m)).
      { clear -Sm. induction Sm as [|a p l l' [P1 _] _ IH]; [reflexivity|]. cbn. f_equal; [symmetry; exact P1|exact IH]. }
      rewrite (mputs_fresh kvs [] true); [exact Sm|]. cbn. rewrite E. exact Hn.
  Qed.

  Lemma aims_one d0 f g e : aims d0 f e = true -> aims d0 g e = true -> f = g.
  Proof.
    unfold aims. destruct (target d0 (fst e)); [|discriminate]. intros H1 H2. apply field_eqb_eq in H1, H2. congruence.
  Qed.

  Lemma filter_all {A} (p : A -> bool) l : (forall a, In a l -> p a = true) -> filter p l = l.
  Proof.
    induction l as [|a l IH]; intros H; [reflexivity|]. cbn. rewrite (H a (or_introl eq_refl)), IH; [reflexivity|].
    intros; apply H; right; assumption.
  Qed.

  Lemma list_round d d0 (P : field -> list (node * node) -> Prop) order : NoDup order ->
    (forall f, In f order -> exists lf, Forall2 wrote (field_segs to_yaml d f) lf /\ (forall e, In e lf -> aims d0 f e = true) /\ P f lf) ->
    exists l, Forall2 wrote (flat_map (field_segs to_yaml d) order) l /\ (forall f, In f order -> P f (filter (aims d0 f) l)) /\
      (forall e, In e l -> exists f, In f order /\ aims d0 f e = true).
  Proof.
    induction order as [|g order IH]; intros Hn H.
    - exists []. cbn. repeat split; [constructor|intros f []|intros e []].
    - inversion Hn as [|x y N1 N2]; subst. destruct IH as [l [W [I1 I3]]]; [exact N2|intros; apply H; right; assumption|].
      destruct (H g (or_introl eq_refl)) as [lg [W' [A Pg]]].
      exists (lg ++ l). split; [apply Forall2_app; assumption|].
      assert (Hg : filter (aims d0 g) l = []).
      { apply filter_none. intros e He. destruct (aims d0 g e) eqn:E; [|reflexivity]. exfalso.
        destruct (I3 e He) as [f [Hf Ha]]. apply N1. rewrite (aims_one d0 g f e E Ha). exact Hf. }
      split.
      + intros f [<-|Hf].
        * rewrite filter_app, Hg, app_nil_r, filter_all by exact A. exact Pg.
        * rewrite filter_app. assert (E : filter (aims d0 f) lg = []).
          { apply filter_none. intros e He. destruct (aims d0 f e) eqn:E; [|reflexivity]. exfalso.
            apply N1. rewrite <- (aims_one d0 f g e E (A e He)). exact Hf. }
          rewrite E. cbn. apply I1. exact Hf.
      + intros e He. apply in_app_or in He as [He|He].
        * exists g. split; [left; reflexivity|apply A; exact He].
        * destruct (I3 e He) as [f [Hf Ha]]. exists f. split; [right; exact Hf|exact Ha].
  Qed.

  Lemma field_round d s f v : tidy d -> d_kind d <> TyInclude -> getf f d = Some v ->
    field_returns (fun t => comes_back t /\ shaped t) (d_kind d) f v ->
    let d0 := set_schema s (new_type (d_kind d)) in
    exists lf, Forall2 wrote (field_segs to_yaml d f) lf /\ (forall e, In e lf -> aims d0 f e = true) /\
      exists old w, getf f d0 = Some old /\ (f = FType -> s = d_type d -> True) /\
        fold_res (stepper hat (d_kind d) f) old lf = Ok w /\ same_fval same_type (d_kind d) v w.
  Proof.
    intros Ht Hk G R d0. pose proof (proj1 Ht) as Hs.
    assert (S0 : shaped d0) by (apply shaped_set_schema, shaped_new).
    assert (K0 : d_kind d0 = d_kind d) by (unfold d0; rewrite d_kind_set, d_kind_new; reflexivity).
    pose proof (get_spec_sort d f v Hs G) as Sv.
    destruct (field_dec f FType) as [->|N1].
    { rewrite getf_type in G. injection G as <-. exists [(str_node "type", str_node (d_type d))]. split; [|split].
      - unfold field_segs. rewrite getf_type. cbn. assert (E : (match d_kind d with TyInclude => Scal TInclude (d_type d) | _ => str_node (d_type d) end) = str_node (d_type d))
          by (destruct (d_kind d); congruence). rewrite E. constructor; [split; reflexivity|constructor].
      - intros e [<-|[]]. rewrite aims_type. reflexivity.
      - exists (VStr (d_type d0)), (VStr (d_type d)). split; [apply getf_type|]. split; [auto|]. split; [reflexivity|apply same_equal]. }
    pose proof (start_field d f v s Hs G N1) as G0. fold d0 in G0.
    destruct (field_dec f FExtra) as [->|N2].
    { destruct v; cbn in Sv; destruct (d_kind d); try discriminate Sv; inversion R as [| | | | | | | | | | | | | | | |m0 Hx]; subst;
        (assert (Ha : apart (map fst (ents m)) = true) by (destruct Ht as [_ [_ [Ha _]]]; unfold extra_keys in Ha; rewrite getf_extra in G; injection G as <-; exact Ha));
        destruct (extras_round _ d0 m S0 K0 Ha Hx) as [lf [w [W1 [W2 [W3 W4]]]]]; exists lf;
        (split; [unfold field_segs; rewrite G; exact W1|split; [exact W2|]]); eexists; eexists; (split; [exact G0|]); (split; [auto|]); (split; [exact W3|apply same_extra; exact W4]). }
    destruct (field_dec f FAnns) as [->|N3].
    { destruct v; cbn in Sv; try (destruct (d_kind d); discriminate Sv). inversion R as [| | | | | | | | | | | |m0 Hx| | | |]; subst.
      assert (Hd : exists b x fs c p, d0 = TExt b x fs c p).
      { unfold d0 in *. destruct d as [b|b x fs c p]; [discriminate G|]. destruct (shaped_cases b x fs c p Hs) as [M1 [M2 _]].
        unfold d_kind. cbn [d_base]. destruct (b_kind b); try congruence; cbn; eauto 6. }
      assert (Ha : NoDup (map fst (ents m))) by (destruct Ht as [_ [_ [_ [Ha _]]]]; unfold ann_keys_of in Ha; rewrite G in Ha; exact Ha).
      destruct (anns_round _ d0 m S0 K0 Hd Ha Hx) as [lf [w [W1 [W2 [W3 W4]]]]]. exists lf.
      split; [unfold field_segs; rewrite G; exact W1|]. split; [exact W2|]. eexists; eexists.
      split; [exact G0|]. split; [auto|]. split; [exact W3|apply same_anns; exact W4]. }
    pose proof (written_round (d_kind d) f v Sv N1 N2 N3 R) as W.
    assert (E : field_segs to_yaml d f = opt_seg (written_key f) (written to_yaml (d_kind d) f v)).
    { unfold field_segs. rewrite G. destruct v; try reflexivity; exfalso; destruct f; cbn in Sv; try congruence; destruct (d_kind d); discriminate Sv. }
    rewrite E. destruct (written to_yaml (d_kind d) f v) as [r|]; cbn [opt_seg].
    - destruct W as [N4 [n [w [-> [St Sm]]]]]. exists [(str_node (written_key f), n)].
      split; [constructor; [split; reflexivity|constructor]|]. split.
      + intros e [<-|[]]. destruct (facet_in d f v Hs G N1 N2 N3 N4) as [I1 I2].
        rewrite (aims_facet d0 f (written_key f)); [apply String.eqb_refl|exact S0|rewrite K0; exact I1|exact I2].
      + eexists; exists w. split; [exact G0|]. split; [auto|]. split; [|exact Sm]. cbn. unfold stepper. cbn [fst snd]. rewrite St. reflexivity.
    - exists []. split; [constructor|]. split; [intros e []|]. eexists; eexists. split; [exact G0|]. split; [auto|]. split; [reflexivity|exact W].
  Qed.

  Lemma shaped_has d d' f : shaped d -> shaped d' -> d_kind d = d_kind d' -> getf f d = None -> getf f d' = None.
  Proof.
    intros H H' K. apply getf_shape. unfold shaped in *. rewrite K in H. eapply same_shape_trans; [exact H|]. rewrite same_shape_sym. exact H'.
  Qed.

  (** C31 *)
  Lemma round_trip d : type_returns d -> comes_back d /\ shaped d.
  Proof.
    revert d. apply type_returns_rec. intros d Ht Hk Hi Hf. pose proof (proj1 Ht) as Hs. split; [|exact Hs].
    destruct (is_short (segs to_yaml d)) eqn:Es.
    - pose proof (short_only _ d Ht Es) as Ho. exists (type_node (d_base d)), (set_schema (d_type d) (new_type (d_kind d))).
      split; [rewrite written_pairs, Es by exact Ht; reflexivity|]. split.
      + unfold type_node. destruct (b_kind (d_base d)) eqn:E; fold (d_kind d) in E; rewrite E; try reflexivity;
          (rewrite hat_eq; cbn -[type_to_kind new_type]; rewrite type_to_kind_eq; rewrite E in Hk; fold (d_type d);
           rewrite (proj1 (named_kind_of (d_type d) _) (Hk ltac:(discriminate))); reflexivity).
      + constructor.
        * rewrite d_kind_set, d_kind_new. reflexivity.
        * intros f v G. destruct (field_dec f FType) as [->|N].
          -- rewrite getf_type in *. injection G as <-. eexists. split; [reflexivity|]. rewrite d_type_set. apply same_equal.
          -- exists (default_value (d_kind d) f). split; [exact (start_field d f v _ Hs G N)|].
             pose proof (Ho f v N G) as D. pose proof (get_spec_sort d f v Hs G) as Sv.
             destruct v; try (destruct o; [destruct f; cbn in Sv; destruct (d_kind d); try discriminate Sv; discriminate D|]);
               try (destruct f; cbn in Sv; destruct (d_kind d); try discriminate Sv; cbn [default_value is_default] in *; try (apply same_equal);
                    try (apply Bool.eqb_prop in D; subst; apply same_equal); try (apply Z.eqb_eq in D; subst; apply same_equal); fail).
             ++ destruct f; cbn in Sv; destruct (d_kind d); try discriminate Sv; congruence.
             ++ destruct f; cbn in Sv; destruct (d_kind d); try discriminate Sv; apply same_types; cbn in D; unfold empty in D; destruct m as [[|e0 l0] o0]; try discriminate D; constructor.
             ++ destruct f; cbn in Sv; destruct (d_kind d); try discriminate Sv; apply same_facets; cbn in D; unfold empty in D; destruct m as [[|e0 l0] o0]; try discriminate D; constructor.
             ++ destruct f; cbn in Sv; destruct (d_kind d); try discriminate Sv; apply same_anns; cbn in D; unfold same_map, empty in *; destruct m as [[|e0 l0] o0]; try discriminate D; constructor.
             ++ destruct f; cbn in Sv; destruct (d_kind d); try discriminate Sv; apply same_exs; cbn in D; unfold same_map, empty in *; destruct m as [[|e0 l0] o0]; try discriminate D; constructor.
             ++ destruct f; cbn in Sv; destruct (d_kind d); try discriminate Sv; apply same_extra; cbn in D; unfold same_map, empty in *; destruct m as [[|e0 l0] o0]; try discriminate D; constructor.
        * intros f. apply shaped_has; [exact Hs|apply shaped_set_schema, shaped_new|rewrite d_kind_set, d_kind_new; reflexivity].
    - assert (Kd : d_kind d <> TyInclude).
      { intros E. rewrite segs_fields in Es by exact Hs. rewrite E in Es. cbn [write_order flat_map] in Es. unfold field_segs in Es.
        rewrite getf_type, getf_extra, (Hi E) in Es. discriminate Es. }
      specialize (Hk Kd). apply named_kind_of in Hk.
      pose (d0 := set_schema (d_type d) (new_type (d_kind d))).
      assert (S0 : shaped d0) by (apply shaped_set_schema, shaped_new).
      assert (K0 : d_kind d0 = d_kind d) by (unfold d0; rewrite d_kind_set, d_kind_new; reflexivity).
      destruct (list_round d d0
        (fun f lf => forall v, getf f d = Some v -> exists old w, getf f d0 = Some old /\
           fold_res (stepper hat (d_kind d) f) old lf = Ok w /\ same_fval same_type (d_kind d) v w)
        (write_order (d_kind d)) (write_order_nodup _)) as [l [W [I1 I2]]].
      { intros f _. destruct (getf f d) as [v|] eqn:G.
        - destruct (field_round d (d_type d) f v Ht Kd G (Hf f v G)) as [lf [A [B [old [w [C1 [_ [C2 C3]]]]]]]].
          exists lf. split; [exact A|]. split; [exact B|]. intros v' E. injection E as <-. eauto.
        - exists []. split; [unfold field_segs; rewrite G; constructor|]. split; [intros e []|]. intros v E. discriminate. }
      assert (Y : to_yaml d = Ok (Map TMap l)).
      { rewrite written_pairs, Es by exact Ht. apply out_to_yaml_ok. eauto. }
      assert (T0 : forall e, In e l -> target d0 (fst e) <> None).
      { intros e He. destruct (I2 e He) as [f [_ A]]. unfold aims in A. destruct (target d0 (fst e)); congruence. }
      assert (Fo : forall f v, getf f d = Some v -> exists old w, getf f d0 = Some old /\
           fold_res (stepper hat (d_kind d) f) old (filter (aims d0 f) l) = Ok w /\ same_fval same_type (d_kind d) v w).
      { intros f v G. apply I1; [eapply in_write_order; eassumption|exact G]. }
      destruct (fields_fold hat l d0 T0) as [d' Hd'].
      { intros f old G. destruct (getf f d) as [v|] eqn:E.
        - destruct (Fo f v E) as [old' [w [A [B _]]]]. rewrite G in A. injection A as <-. rewrite K0. eauto.
        - rewrite (shaped_has d d0 f Hs S0 (eq_sym K0) E) in G. discriminate. }
      pose proof (fold_kind _ _ _ _ Hd') as [K' S'].
      exists (Map TMap l), d'. split; [exact Y|]. split.
      + rewrite hat_map by discriminate. exists d0. split; [|exact Hd'].
        destruct (type_pair d l Ht Y) as [p [q [-> Hp]]]. rewrite sift_first by (reflexivity || exact Hp).
        assert (E : type_node (d_base d) = str_node (d_type d)).
        { unfold type_node, d_kind, d_type in *. destruct (b_kind (d_base d)); congruence. }
        rewrite E. cbn. rewrite Hk. reflexivity.
      + constructor.
        * congruence.
        * intros f v G. destruct (Fo f v G) as [old [w [A [B C]]]].
          destruct (fold_fields _ _ _ _ Hd' f old A) as [w' [G' B']]. rewrite K0, B in B'. injection B' as <-. eauto.
        * intros f. intros G. apply (getf_shape f d0 d'); [rewrite same_shape_sym; exact S'|]. exact (shaped_has d d0 f Hs S0 (eq_sym K0) G).
  Qed.

  (** ** Types that come back: the new ones, and those made from them by setters *)

  Lemma default_returns k f s v P : getf f (set_schema s (new_type k)) = Some v -> field_returns P k f v.
  Proof.
    intros G. destruct k; destruct f; cbn in G; try discriminate G; injection G as <-;
      first [apply ret_str|apply ret_optstr|apply ret_bool|apply ret_strs
            |apply ret_int; unfold ArrayDefaultMinItems, ArrayDefaultMaxItems, FileDefaultMinLength, FileDefaultMaxLength, StringDefaultMinLength; lia
            |apply ret_optint; intros; discriminate|apply ret_optfloat; intros; discriminate|apply ret_optval; intros; discriminate
            |apply ret_vals; intros ? []|apply ret_type; intros; discriminate
            |apply ret_types; [intros _; reflexivity|constructor|intros ? ? []]|apply ret_facets; [intros X; destruct (X eq_refl)|constructor|intros ? ? []|intros ? ? ? ? []]
            |apply ret_anns; intros ? ? []|apply ret_xml; intros; discriminate|apply ret_ex; intros; discriminate
            |apply ret_exs; [intros _; reflexivity|constructor|intros ? ? []]|apply ret_extra; intros ? ? []].
  Qed.

  Lemma tidy_start k s : tidy (set_schema s (new_type k)).
  Proof.
    assert (E1 : extra_keys (set_schema s (new_type k)) = []) by (destruct k; reflexivity).
    assert (E2 : ann_keys_of (set_schema s (new_type k)) = []) by (destruct k; reflexivity).
    unfold tidy. rewrite E1, E2. split; [apply shaped_set_schema, shaped_new|]. split.
    { intros z G. destruct k; cbn in G; try discriminate; injection G as <-; unfold StringDefaultMinLength, FileDefaultMinLength; lia. }
    repeat split; auto. constructor.
  Qed.

  Lemma new_returns k s : (k <> TyInclude -> named s k) -> type_returns (set_schema s (new_type k)).
  Proof.
    intros H. assert (K : d_kind (set_schema s (new_type k)) = k) by (rewrite d_kind_set, d_kind_new; reflexivity).
    constructor; rewrite ?K, ?d_type_set; [apply tidy_start|exact H|intros ->; reflexivity|].
    intros f v G. eapply default_returns. exact G.
  Qed.

  Lemma set_returns f v d : type_returns d -> f <> FType -> f <> FExtra -> fits f v d -> tidy (setf f v d) ->
    field_returns type_returns (d_kind d) f v -> type_returns (setf f v d).
  Proof.
    intros H N1 N2 Hf Ht Hv. destruct H as [d H1 H2 H3 H4].
    assert (E1 : d_type (setf f v d) = d_type d).
    { assert (X : getf FType (setf f v d) = getf FType d) by (apply getf_setf_other; exact N1). rewrite !getf_type in X. congruence. }
    assert (E2 : d_extra (setf f v d) = d_extra d).
    { assert (X : getf FExtra (setf f v d) = getf FExtra d) by (apply getf_setf_other; exact N2). rewrite !getf_extra in X. congruence. }
    constructor; rewrite ?d_kind_setf, ?E1, ?E2; [exact Ht|exact H2|exact H3|].
    intros g w G. destruct (field_dec f g) as [<-|N].
    - rewrite getf_setf_same in G by exact Hf. injection G as <-. exact Hv.
    - rewrite getf_setf_other in G by exact N. apply H4. exact G.
  Qed.

  Lemma tidy_set f v d : tidy d -> f <> FExtra -> f <> FAnns -> f <> FDefault -> fits f v d ->
    (forall z, f = FMinLength -> v = VInt z -> (0 <= z)%Z) -> tidy (setf f v d).
  Proof.
    intros [H1 [H2 [H3 [H4 [H5 H6]]]]] N1 N2 N3 Hf Hz.
    assert (E1 : extra_keys (setf f v d) = extra_keys d).
    { assert (X : getf FExtra (setf f v d) = getf FExtra d) by (apply getf_setf_other; exact N1). rewrite !getf_extra in X.
      unfold extra_keys. congruence. }
    assert (E2 : ann_keys_of (setf f v d) = ann_keys_of d) by (unfold ann_keys_of; rewrite getf_setf_other by exact N2; reflexivity).
    assert (E3 : field_names (setf f v d) = field_names d).
    { unfold field_names. rewrite d_kind_setf. rewrite getf_setf_other by exact N3. reflexivity. }
    unfold tidy. rewrite E1, E2, E3. split; [apply shaped_setf; exact H1|]. split; [|auto].
    intros z G. destruct (field_dec f FMinLength) as [->|N].
    - rewrite getf_setf_same in G by exact Hf. injection G as ->. apply (Hz z); reflexivity.
    - rewrite getf_setf_other in G by exact N. apply H2. exact G.
  Qed.
End Round.
