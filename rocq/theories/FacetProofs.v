(** C25, C26, C28, C44: single facets. *)
From Coq Require Import SpecFloat.
From Verif Require Import Base Num OMap OMapSpec Keys Yaml Values Assign Formats Meta Out Xml Example DataType Marshal
  AssignProofs TypeFacts Fields FieldProofs FacetSpec.

Lemma as_unsigned_iff n z z' : denotes_int n z -> (as_unsigned z z' <-> z' = uint_of_int64 z).
Proof.
  intros [_ H]. unfold as_unsigned. destruct (Z_lt_le_dec z 0) as [Hz|Hz].
  - rewrite uint_of_int64_neg by (unfold min_int64; lia). split; [intros [_ H']; auto|intros ->; split; lia].
  - rewrite uint_of_int64_nonneg by (unfold max_int64; lia). split; [intros [H' _]; auto|intros ->; split; lia].
Qed.

Lemma unsigned_step (g : Z -> fval) n v :
  (do z <- to_int n; Ok (g (uint_of_int64 z))) = Ok v <->
  exists z z', denotes_int n z /\ as_unsigned z z' /\ v = g z'.
Proof.
  rewrite bind_ok. split.
  - intros [z [Hz H]]. injection H as <-. apply denotes_int_iff in Hz. exists z, (uint_of_int64 z).
    repeat split; try exact Hz; try (apply Hz); apply (as_unsigned_iff n z _ Hz); reflexivity.
  - intros [z [z' [Hz [Hu ->]]]]. exists z. split; [apply denotes_int_iff; exact Hz|].
    apply (as_unsigned_iff n z z' Hz) in Hu. subst; reflexivity.
Qed.

Lemma conv_step {A} (conv : node -> res A) (den : node -> A -> Prop) (g : A -> fval) n v :
  (forall n a, conv n = Ok a <-> den n a) ->
  (do a <- conv n; Ok (g a)) = Ok v <-> exists a, den n a /\ v = g a.
Proof.
  intros H. rewrite bind_ok. split.
  - intros [a [Ha E]]. injection E as <-. exists a. split; [apply H; exact Ha|reflexivity].
  - intros [a [Ha ->]]. exists a. split; [apply H; exact Ha|reflexivity].
Qed.

Lemma enum_elem_iff {F : FloatIO} k n v : enum_elem k n = Ok v <-> enum_value k n v.
Proof.
  assert (Hs : (do s <- to_str n; Ok (GStr s)) = Ok v <-> exists s, denotes_string n s /\ v = GStr s).
  { rewrite bind_ok. split; intros [s [H1 H2]]; exists s; rewrite denotes_string_iff in *; split; congruence. }
  unfold enum_elem, enum_value. destruct k; try exact Hs; try (split; congruence).
  - rewrite bind_ok. split; intros [s [H1 H2]]; exists s; rewrite denotes_bool_iff in *; split; congruence.
  - rewrite bind_ok. split; intros [s [H1 H2]]; exists s; rewrite denotes_int_iff in *; split; congruence.
  - rewrite bind_ok. split; intros [s [H1 H2]]; exists s; rewrite denotes_float_iff in *; split; congruence.
Qed.

Lemma read_enum_iff {F : FloatIO} k o n o' :
  read_enum k o n = Ok o' <->
  exists t l vs, n = Seq t l /\ Forall2 (enum_value k) l vs /\
    o' = match vs with [] => o | _ => Some (opt_list o ++ vs) end.
Proof.
  unfold read_enum. destruct n as [t v|t l|t l]; simpl;
    try (split; [discriminate|intros [t' [l' [vs [E _]]]]; discriminate]).
  assert (H : forall o o', fold_res (fun acc cur => do v <- enum_elem k cur; Ok (Some (opt_list acc ++ [v]))) o l = Ok o' <->
     exists vs, Forall2 (enum_value k) l vs /\ o' = match vs with [] => o | _ => Some (opt_list o ++ vs) end).
  { clear. induction l as [|a l IH]; intros o o'; simpl.
    - split; [intros H; injection H as <-; exists []; split; [constructor|reflexivity]|].
      intros [vs [H ->]]. inversion H; reflexivity.
    - rewrite bind_ok. split.
      + intros [o1 [H1 H]]. apply bind_ok in H1 as [v [Hv H1]]. injection H1 as <-.
        apply IH in H as [vs [Hl ->]]. exists (v :: vs). split; [constructor; [apply enum_elem_iff; exact Hv|exact Hl]|].
        simpl. destruct vs; [reflexivity|]. rewrite <- app_assoc. reflexivity.
      + intros [vs [H ->]]. inversion H as [|x v y vs' Hv Hl E1 E2]; subst.
        apply enum_elem_iff in Hv. rewrite Hv. simpl. eexists; split; [reflexivity|].
        apply IH. exists vs'. split; [exact Hl|]. simpl. destruct vs'; [reflexivity|]. rewrite <- app_assoc. reflexivity. }
  rewrite H. split.
  - intros [vs [H1 H2]]. exists t, l, vs. auto.
  - intros [t' [l' [vs [E [H1 H2]]]]]. injection E as <- <-. eauto.
Qed.

Lemma Forall2_iff {A B} (P Q : A -> B -> Prop) l l' :
  (forall a b, P a b <-> Q a b) -> Forall2 P l l' <-> Forall2 Q l l'.
Proof. intros H. split; intros H'; induction H'; constructor; try apply H; auto. Qed.

(** ** Which key belongs to which facet *)

Lemma target_facet d key f : shaped d -> In f (facets_of (d_kind d)) -> facet_key f = Some (value key) ->
  target d key = Some f.
Proof.
  intros Hs Hi Hk. unfold shaped in Hs. destruct d as [b|b x fs c s].
  - unfold d_kind in *; simpl in *. destruct (b_kind b); simpl in Hs; try discriminate; destruct Hi.
  - unfold target. unfold d_kind in *. cbn [d_base] in *.
    destruct (b_kind b); destruct s; cbn in Hs; try discriminate Hs; clear Hs; cbn in Hi;
      repeat (destruct Hi as [<-|Hi]; [injection Hk as Hk; rewrite <- Hk; reflexivity|]); destruct Hi.
Qed.

Lemma known_key_in k s : In s (known_keys k) <->
  s = "type" \/ s = "schema" \/ exists f, In f (facets_of k) /\ facet_key f = Some s.
Proof.
  unfold known_keys. cbn [In]. rewrite in_flat_map. split.
  - intros [H|[H|[f [H1 H2]]]]; auto. right; right. exists f. split; [exact H1|].
    destruct (facet_key f); [|destruct H2]. destruct H2 as [->|[]]. reflexivity.
  - intros [->|[->|[f [H1 H2]]]]; auto. right; right. exists f. split; [exact H1|]. rewrite H2. left; reflexivity.
Qed.

Lemma target_unknown d key : shaped d -> ~ In (value key) (known_keys (d_kind d)) ->
  target d key =
  match d with
  | TBase _ => Some FExtra
  | TExt _ _ _ _ _ =>
    if is_annotation_key key then Some FAnns
    else if is_string key && String.eqb (value key) "" then None else Some FExtra
  end.
Proof.
  intros Hs Hn. unfold target.
  assert (Hb : base_target (value key) = FExtra).
  { unfold base_target. destruct (String.eqb_spec (value key) "type") as [E|_]; [destruct Hn; rewrite E; left; reflexivity|].
    destruct (String.eqb_spec (value key) "schema") as [E|_]; [destruct Hn; rewrite E; right; left; reflexivity|reflexivity]. }
  rewrite Hb. destruct d as [b|b x fs c s]; [reflexivity|].
  assert (Hk : forall f, In f (facets_of (d_kind (TExt b x fs c s))) -> facet_key f <> Some (value key)).
  { intros f H1 H2. apply Hn. apply known_key_in. right; right. eauto. }
  assert (Hne : forall f s0, In f (facets_of (d_kind (TExt b x fs c s))) -> facet_key f = Some s0 -> String.eqb (value key) s0 = false).
  { intros f s0 H1 H2. apply String.eqb_neq. intros E. apply (Hk f H1). congruence. }
  assert (Hc : forall f, In f common_facets -> In f (facets_of (d_kind (TExt b x fs c s)))).
  { intros f H. unfold shaped in Hs. unfold d_kind in *; cbn [d_base] in *.
    unfold facets_of. destruct (b_kind b); cbn in Hs; try discriminate Hs; apply in_or_app; right; exact H. }
  unfold common_target, ext_target.
  rewrite (Hne FExample) by (try reflexivity; apply Hc; simpl; tauto).
  rewrite (Hne FExamples) by (try reflexivity; apply Hc; simpl; tauto).
  rewrite (Hne FEnum) by (try reflexivity; apply Hc; simpl; tauto).
  rewrite (Hne FRequired) by (try reflexivity; apply Hc; simpl; tauto).
  rewrite (Hne FDisplay) by (try reflexivity; apply Hc; simpl; tauto).
  rewrite (Hne FDescr) by (try reflexivity; apply Hc; simpl; tauto).
  rewrite (Hne FFacets) by (try reflexivity; apply Hc; simpl; tauto).
  rewrite (Hne FXml) by (try reflexivity; apply Hc; simpl; tauto).
  assert (Hsp : spec_target s (value key) = None).
  { unfold shaped in Hs. unfold d_kind in *; cbn [d_base] in *.
    destruct (b_kind b); destruct s; cbn in Hs; try discriminate Hs; clear Hs; cbn [spec_target]; try reflexivity;
      repeat match goal with
      | |- context [String.eqb (value key) ?x] =>
        let E := fresh in destruct (String.eqb_spec (value key) x) as [E|_];
          [exfalso; apply Hn; rewrite E; cbn; tauto|]
      end; reflexivity. }
  rewrite Hsp. unfold is_annotation_key. destruct (is_string key); [|reflexivity].
  destruct (value key) as [|a t]; [reflexivity|]. cbn [andb]. destruct (Ascii.eqb a "("); reflexivity.
Qed.

Lemma get_new k f : In f (facets_of k) -> forall s, getf f (set_schema s (new_type k)) = Some (default_value k f).
Proof.
  intros Hi s. destruct k; cbn in Hi; repeat (destruct Hi as [<-|Hi]; [reflexivity|]); destruct Hi.
Qed.

Lemma facet_has d f : shaped d -> In f (facets_of (d_kind d)) -> exists old, getf f d = Some old.
Proof.
  intros Hs Hi. unfold shaped in Hs. destruct d as [b|b x fs c s].
  - unfold d_kind in *; simpl in *. destruct (b_kind b); simpl in Hs; try discriminate; destruct Hi.
  - unfold d_kind in *. cbn [d_base] in *.
    destruct (b_kind b); destruct s; cbn in Hs; try discriminate Hs; clear Hs; cbn in Hi;
      repeat (destruct Hi as [<-|Hi]; [cbn; eauto|]); destruct Hi.
Qed.

Section Facets.
  Context {F : FloatIO}.
  Variable rd : node -> res dtype.
  Let rdr (n : node) (t : dtype) : Prop := rd n = Ok t.

  Lemma read_properties_iff m n m' : read_properties rd m n = Ok m' <->
    exists t l kvs, n = Map t l /\
      Forall2 (fun e kv => denotes_string (fst e) (fst kv) /\ rdr (snd e) (snd kv) /\
                           (forall b, snd kv <> TBase b)) l kvs /\
      m' = fold_left (fun m kv => mput (fst kv) (snd kv) m) kvs m.
  Proof.
    unfold read_properties. rewrite read_amap_map.
    assert (H : forall (e : node * node) (kv : string * dtype),
       accepts (fun v => do d <- rd v; as_property d) e kv <->
       (denotes_string (fst e) (fst kv) /\ rdr (snd e) (snd kv) /\ (forall b, snd kv <> TBase b))).
    { intros e kv. unfold accepts, rdr. rewrite bind_ok. split.
      - intros [H1 [d [H2 H3]]]. destruct d as [b|b x fs c s]; [discriminate|]. injection H3 as H3.
        rewrite <- H3. split; [exact H1|]. split; [exact H2|]. intros b0; discriminate.
      - intros [H1 [H2 H3]]. split; [exact H1|]. exists (snd kv). split; [exact H2|].
        destruct (snd kv) as [b|b x fs c s]; [destruct (H3 b eq_refl)|reflexivity]. }
    split; intros [t [l [kvs [E [H1 H2]]]]]; exists t, l, kvs;
      (split; [exact E|]); (split; [|exact H2]); revert H1; apply Forall2_iff; intros; rewrite H; reflexivity.
  Qed.

  Lemma read_facets_iff m n m' : read_facets rd m n = Ok m' <->
    exists t l kvs, n = Map t l /\
      Forall2 (fun e kv => denotes_string (fst e) (fst kv) /\
                 exists t' l' tys, snd e = Map t' l' /\
                   Forall2 (fun e' kv' => denotes_string (fst e') (fst kv') /\ rdr (snd e') (snd kv')) l' tys /\
                   snd kv = fold_left (fun m kv => mput (fst kv) (snd kv) m) tys anew) l kvs /\
      m' = fold_left (fun m kv => mput (fst kv) (snd kv) m) kvs m.
  Proof.
    unfold read_facets, read_types. rewrite read_amap_map.
    split; intros [t [l [kvs [E [H1 H2]]]]]; exists t, l, kvs; (split; [exact E|]); (split; [|exact H2]);
      revert H1; apply Forall2_iff; intros e kv; unfold accepts; rewrite read_amap_map; reflexivity.
  Qed.

  (** ** The value of a facet *)

  Lemma step_declared d f key val old v :
    shaped d -> In f (facets_of (d_kind d)) -> getf f d = Some old ->
    step rd (d_kind d) f key val old = Ok v <-> declared rdr (d_kind d) f val old v.
  Proof.
    intros Hs Hi Hg. unfold shaped in Hs. destruct d as [b|b x fs c s].
    - unfold d_kind in *; simpl in *. destruct (b_kind b); simpl in Hs; try discriminate; destruct Hi.
    - unfold d_kind in *. cbn [d_base] in *.
      assert (HEnum : forall k o, (do l' <- read_enum k o val; Ok (VVals l')) = Ok v <->
        exists t l vs o0, val = Seq t l /\ VVals o = VVals o0 /\ Forall2 (enum_value k) l vs /\
          v = VVals (match vs with [] => o0 | _ => Some (opt_list o0 ++ vs) end)).
      { intros k o. rewrite bind_ok. split.
        - intros [l' [H E]]. injection E as <-. apply read_enum_iff in H as [t [l [vs [H1 [H2 ->]]]]].
          exists t, l, vs, o. auto.
        - intros [t [l [vs [o0 [H1 [E [H2 ->]]]]]]]. injection E as <-. eexists. split; [|reflexivity].
          apply read_enum_iff. exists t, l, vs. auto. }
      assert (HExs : forall k m, (do m' <- read_examples k m val; Ok (VExs m')) = Ok v <->
        exists t l kvs m0, val = Map t l /\ VExs m = VExs m0 /\
          Forall2 (fun e kv => denotes_string (fst e) (fst kv) /\ read_ex k (snd e) = Ok (snd kv)) l kvs /\
          v = VExs (fold_left (fun m kv => mput (fst kv) (snd kv) m) kvs m0)).
      { intros k m. rewrite bind_ok. unfold read_examples. split.
        - intros [m' [H E]]. injection E as <-. apply read_amap_map in H as [t [l [kvs [H1 [H2 ->]]]]].
          exists t, l, kvs, m. auto.
        - intros [t [l [kvs [m0 [H1 [E [H2 ->]]]]]]]. injection E as <-. eexists. split; [|reflexivity].
          apply read_amap_map. exists t, l, kvs. auto. }
      assert (HProps : forall m, (do m' <- read_properties rd m val; Ok (VTypes m')) = Ok v <->
        exists t l kvs m0, val = Map t l /\ VTypes m = VTypes m0 /\
          Forall2 (fun e kv => denotes_string (fst e) (fst kv) /\ rdr (snd e) (snd kv) /\
                               (forall b, snd kv <> TBase b)) l kvs /\
          v = VTypes (fold_left (fun m kv => mput (fst kv) (snd kv) m) kvs m0)).
      { intros m. rewrite bind_ok. split.
        - intros [m' [H E]]. injection E as <-. apply read_properties_iff in H as [t [l [kvs [H1 [H2 ->]]]]].
          exists t, l, kvs, m. auto.
        - intros [t [l [kvs [m0 [H1 [E [H2 ->]]]]]]]. injection E as <-. eexists. split; [|reflexivity].
          apply read_properties_iff. exists t, l, kvs. auto. }
      assert (HFacets : forall m, (do m' <- read_facets rd m val; Ok (VFacets m')) = Ok v <->
        exists t l kvs m0, val = Map t l /\ VFacets m = VFacets m0 /\
          Forall2 (fun e kv => denotes_string (fst e) (fst kv) /\
                 exists t' l' tys, snd e = Map t' l' /\
                   Forall2 (fun e' kv' => denotes_string (fst e') (fst kv') /\ rdr (snd e') (snd kv')) l' tys /\
                   snd kv = fold_left (fun m kv => mput (fst kv) (snd kv) m) tys anew) l kvs /\
          v = VFacets (fold_left (fun m kv => mput (fst kv) (snd kv) m) kvs m0)).
      { intros m. rewrite bind_ok. split.
        - intros [m' [H E]]. injection E as <-. apply read_facets_iff in H as [t [l [kvs [H1 [H2 ->]]]]].
          exists t, l, kvs, m. auto.
        - intros [t [l [kvs [m0 [H1 [E [H2 ->]]]]]]]. injection E as <-. eexists. split; [|reflexivity].
          apply read_facets_iff. exists t, l, kvs. auto. }
      assert (HXml : (do x <- xml_unmarshal val new_xml; Ok (VXml (Some x))) = Ok v <->
        exists x, xml_unmarshal val new_xml = Ok x /\ v = VXml (Some x)).
      { rewrite bind_ok. split; intros [y [H1 H2]]; exists y; split; congruence. }
      assert (HEx : forall k, (do e <- read_ex k val; Ok (VEx (Some e))) = Ok v <->
        exists e, read_ex k val = Ok e /\ v = VEx (Some e)).
      { intros k. rewrite bind_ok. split; intros [y [H1 H2]]; exists y; split; congruence. }
      assert (HFt : forall ft, (do l' <- run_assign (as_string_list val ft); Ok (VStrs l')) = Ok v <->
        exists l, denotes_strings val l /\ v = VStrs (Some l)).
      { intros ft. destruct (as_string_list_all val ft) as [[l [Hl ->]]|[Hl ->]]; simpl.
        - split; [intros E; injection E as <-; eauto|]. intros [l' [Hl' ->]].
          destruct Hl as [t1 [n1 [-> H1]]]. destruct Hl' as [t2 [n2 [E H2]]]. injection E as <- <-.
          replace l' with l; [reflexivity|]. clear - H1 H2. revert l' H2.
          induction H1 as [|a b l1 l2 [_ Hv] _ IH]; intros l' H2; inversion H2 as [|a' b' x' y' [_ Hv'] H3]; subst; [reflexivity|].
          f_equal. apply IH; assumption.
        - split; [discriminate|]. intros [l' [Hl' _]]. destruct (Hl _ Hl'). }
      destruct (b_kind b); destruct s; cbn in Hs; try discriminate Hs; clear Hs; cbn in Hi;
        repeat (destruct Hi as [<-|Hi];
          [ cbn in Hg; injection Hg as <-; cbn [step declared has_example];
            try (rewrite HEnum; reflexivity); try (rewrite HExs; reflexivity); try (rewrite HProps; reflexivity);
            try (rewrite HFacets; reflexivity); try (rewrite HXml; reflexivity); try (rewrite HFt; reflexivity);
            try (rewrite HEx; split; [intros H0; split; [discriminate|exact H0]|intros [_ H0]; exact H0]);
            try (rewrite (conv_step to_str denotes_string) by (intros; apply denotes_string_iff); reflexivity);
            try (rewrite (conv_step to_bool denotes_bool) by (intros; apply denotes_bool_iff); reflexivity);
            try (rewrite (conv_step to_int denotes_int) by (intros; apply denotes_int_iff); reflexivity);
            try (rewrite (conv_step to_float denotes_float) by (intros; apply denotes_float_iff); reflexivity);
            try (rewrite (unsigned_step VInt); reflexivity);
            try (rewrite (unsigned_step (fun z => VOptInt (Some z))); reflexivity);
            try (rewrite (conv_step rd rdr) by (intros; reflexivity); reflexivity);
            try (split; congruence);
            try (split; [discriminate|intros [H0 _]; destruct (H0 eq_refl)])
          |]); destruct Hi.
  Qed.

  (** A facet's key sets exactly the facet, to the declared value. *)
  Lemma facet_assign d key val f old : shaped d -> In f (facets_of (d_kind d)) -> facet_key f = Some (value key) ->
    getf f d = Some old ->
    (forall d', type_assign rd d (key, val) = Ok d' ->
       exists v, declared rdr (d_kind d) f val old v /\ getf f d' = Some v /\
                 d_kind d' = d_kind d /\ (forall g, g <> f -> getf g d' = getf g d)) /\
    (forall v, declared rdr (d_kind d) f val old v -> exists d', type_assign rd d (key, val) = Ok d' /\ getf f d' = Some v).
  Proof.
    intros Hs Hi Hk Hg. pose proof (target_facet d key f Hs Hi Hk) as Ht. split.
    - intros d' H. pose proof (assign_kind _ _ _ _ H) as [K _].
      apply assign_ok in H as [f' [old' [v [T [G [S [_ [G' Go]]]]]]]].
      rewrite Ht in T. injection T as <-. rewrite Hg in G. injection G as <-.
      exists v. split; [apply (step_declared d f key val old v); assumption|auto].
    - intros v Hv. rewrite <- (step_declared d f key val old v) in Hv by assumption.
      exists (setf f v d). rewrite type_assign_step, Ht. unfold step_in. rewrite Hg, Hv. split; [reflexivity|].
      apply getf_setf_same. exists old. split; [exact Hg|]. eapply step_sort; eassumption.
  Qed.

End Facets.

(** ** Whole definitions *)

Definition reads {F : FloatIO} (n : node) (d : dtype) : Prop := hat n = Ok d.

Lemma hat_start {F : FloatIO} t l d : t <> TStr -> hat (Map t l) = Ok d ->
  exists s, let d0 := set_schema s (new_type (d_kind d)) in
    sift_type l = Ok d0 /\ fold_res (type_assign hat) d0 l = Ok d /\ shaped d0 /\ d_kind d0 = d_kind d.
Proof.
  intros Ht H. apply hat_map in H as [d0 [H0 H]]; [|exact Ht].
  destruct (sift_start _ _ H0) as [k [s ->]]. pose proof (fold_kind _ _ _ _ H) as [K _].
  rewrite d_kind_set, d_kind_new in K. exists s. rewrite K. cbn zeta.
  split; [exact H0|]. split; [exact H|]. split; [apply shaped_set_schema, shaped_new|].
  rewrite d_kind_set, d_kind_new. reflexivity.
Qed.

Definition mentions (s : string) (l : list (node * node)) : Prop := exists e, In e l /\ value (fst e) = s.

Lemma filter_none {A} (p : A -> bool) l : (forall a, In a l -> p a = false) -> filter p l = [].
Proof.
  induction l as [|a l IH]; intros H; simpl; [reflexivity|].
  rewrite (H a (or_introl eq_refl)). apply IH. intros; apply H; right; assumption.
Qed.

(** A key aims at a facet only if it is the facet's key. *)
Lemma target_key d key f : shaped d -> In f (facets_of (d_kind d)) -> target d key = Some f ->
  facet_key f = Some (value key).
Proof.
  intros Hs Hi Ht. destruct (in_dec string_dec (value key) (known_keys (d_kind d))) as [H|H].
  - apply known_key_in in H as [H|[H|[g [H1 H2]]]].
    + exfalso. unfold target, base_target in Ht. rewrite H in Ht. unfold shaped in Hs. destruct d as [b|b x fs c s].
      * injection Ht as <-. unfold d_kind in *; simpl in *. destruct (b_kind b); simpl in Hs; try discriminate; destruct Hi.
      * destruct s; cbn in Ht; destruct (is_string key); injection Ht as <-; unfold facets_of in Hi;
          unfold d_kind in Hi; cbn [d_base] in Hi; destruct (b_kind b); cbn in Hi; intuition discriminate.
    + exfalso. unfold target, base_target in Ht. rewrite H in Ht. unfold shaped in Hs. destruct d as [b|b x fs c s].
      * injection Ht as <-. unfold d_kind in *; simpl in *. destruct (b_kind b); simpl in Hs; try discriminate; destruct Hi.
      * destruct s; cbn in Ht; destruct (is_string key); injection Ht as <-; unfold facets_of in Hi;
          unfold d_kind in Hi; cbn [d_base] in Hi; destruct (b_kind b); cbn in Hi; intuition discriminate.
    + rewrite (target_facet d key g Hs H1 H2) in Ht. congruence.
  - exfalso. rewrite (target_unknown d key Hs H) in Ht. unfold shaped in Hs.
    assert (Hx : forall k, ~ In FExtra (facets_of k)) by (intros k; destruct k; cbn; intuition discriminate).
    assert (Ha : forall k, ~ In FAnns (facets_of k)) by (intros k; destruct k; cbn; intuition discriminate).
    destruct d as [b|b x fs c s]; [injection Ht as <-; exact (Hx _ Hi)|].
    destruct (is_annotation_key key); [injection Ht as <-; exact (Ha _ Hi)|].
    match type of Ht with (if ?c then _ else _) = _ => destruct c end; [discriminate|].
    injection Ht as <-. exact (Hx _ Hi).
Qed.

Lemma aims_facet d f s e : shaped d -> In f (facets_of (d_kind d)) -> facet_key f = Some s ->
  aims d f e = String.eqb (value (fst e)) s.
Proof.
  intros Hs Hi Hk. unfold aims. destruct (String.eqb_spec (value (fst e)) s) as [E|E].
  - rewrite (target_facet d (fst e) f Hs Hi) by congruence. apply field_eqb_refl.
  - destruct (target d (fst e)) as [g|] eqn:Eg; [|reflexivity]. apply field_eqb_neq. intros <-.
    apply (target_key d (fst e) f Hs Hi) in Eg. congruence.
Qed.

(** The value of a facet after reading a mapping: default if its key is absent, declared if it is there once. *)
Lemma facet_absent {F : FloatIO} t l d f s : t <> TStr -> hat (Map t l) = Ok d ->
  In f (facets_of (d_kind d)) -> facet_key f = Some s -> ~ mentions s l ->
  getf f d = Some (default_value (d_kind d) f).
Proof.
  intros Ht H Hi Hk Hn. destruct (hat_start t l d Ht H) as [sc [_ [Hf [Hs Hd]]]].
  destruct (fold_fields _ l _ _ Hf f _ (get_new _ f Hi sc)) as [v [Hv Hfold]].
  rewrite (filter_none _ l) in Hfold; [simpl in Hfold; congruence|].
  intros e He. rewrite (aims_facet _ f s) by (try assumption; rewrite Hd; assumption).
  apply String.eqb_neq. intros E. apply Hn. exists e. auto.
Qed.

Lemma facet_once {F : FloatIO} t pre key val post d f : t <> TStr -> hat (Map t (pre ++ (key, val) :: post)) = Ok d ->
  In f (facets_of (d_kind d)) -> facet_key f = Some (value key) ->
  ~ mentions (value key) pre -> ~ mentions (value key) post ->
  exists v, declared reads (d_kind d) f val (default_value (d_kind d) f) v /\ getf f d = Some v.
Proof.
  intros Ht H Hi Hk H1 H2. destruct (hat_start t _ d Ht H) as [sc [_ [Hf [Hs Hd]]]].
  destruct (fold_fields _ _ _ _ Hf f _ (get_new _ f Hi sc)) as [v [Hv Hfold]].
  assert (Ha : forall e, aims (set_schema sc (new_type (d_kind d))) f e = String.eqb (value (fst e)) (value key)).
  { intros e. apply aims_facet; try assumption. rewrite Hd; assumption. }
  assert (Hnone : forall l, ~ mentions (value key) l -> filter (aims (set_schema sc (new_type (d_kind d))) f) l = []).
  { intros l Hl. apply filter_none. intros e He. rewrite Ha. apply String.eqb_neq. intros E. apply Hl. exists e; auto. }
  rewrite filter_app in Hfold. cbn [filter] in Hfold. rewrite Ha in Hfold. cbn [fst] in Hfold.
  rewrite String.eqb_refl, (Hnone pre H1), (Hnone post H2) in Hfold. cbn in Hfold.
  rewrite bind_ret in Hfold. unfold stepper in Hfold. cbn [fst snd] in Hfold.
  exists v. split; [|exact Hv].
  pose proof (step_declared hat (set_schema sc (new_type (d_kind d))) f key val
    (default_value (d_kind d) f) v Hs) as Hd'.
  rewrite Hd in Hd'. apply Hd'; [exact Hi|apply get_new; exact Hi|]. rewrite Hd in Hfold. exact Hfold.
Qed.
