(** C60: nested definitions. *)
From Coq Require Import SpecFloat Permutation.
From Verif Require Import Base Num OMap OMapSpec Keys Yaml Values Assign Formats Meta Out Xml Example DataType Marshal
  AssignProofs TypeFacts Fields FieldProofs FacetSpec FacetProofs DocProofs TypeWrite OrderProofs.

(** One step down: to the type of the items, or to the type of a property. *)
Inductive hop : Type :=
| Items
| Prop_ (name : string).

(** Through the getters Items() and Properties().Get(name). *)
Definition type_hop (p : hop) (d : dtype) : option dtype :=
  match p with
  | Items => match getf FItems d with Some (VOptType o) => o | _ => None end
  | Prop_ name => match getf FProps d with Some (VTypes m) => sget String.eqb name (ents m) | _ => None end
  end.

Fixpoint walk (ps : list hop) (d : dtype) : option dtype :=
  match ps with
  | [] => Some d
  | p :: t => match type_hop p d with Some d' => walk t d' | None => None end
  end.

(** In the document: the value of the last pair with the given key. *)
Definition last_value (l : list (node * node)) (s : string) (m : node) : Prop :=
  exists pre k post, l = pre ++ (k, m) :: post /\ value k = s /\ ~ mentions s post.

(** All pairs of all [properties] mappings. *)
Definition property_pairs (l : list (node * node)) : list (node * node) :=
  flat_map (fun e => if String.eqb (value (fst e)) "properties"
                     then match snd e with Map _ ps => ps | _ => [] end else []) l.

Definition node_hop (p : hop) (n m : node) : Prop :=
  exists t l, n = Map t l /\ t <> TStr /\
  match p with
  | Items => last_value l "items" m
  | Prop_ name => last_value (property_pairs l) name m
  end.

(** The kind of type that has such a step. *)
Definition hop_kind (p : hop) : dkind := match p with Items => TyArray | Prop_ _ => TyObject end.

(** [at_path ps n m]: the path leads from [n] to [m] through definitions of arrays and objects. *)
Inductive at_path {F : FloatIO} : list hop -> node -> node -> Prop :=
| at_end n : at_path [] n n
| at_hop p ps n n' m d : hat n = Ok d -> d_kind d = hop_kind p -> node_hop p n n' -> at_path ps n' m -> at_path (p :: ps) n m.

(** ** Proofs *)

Lemma Forall2_impl {A B} (P Q : A -> B -> Prop) l l' : (forall a b, P a b -> Q a b) -> Forall2 P l l' -> Forall2 Q l l'.
Proof. intros H H2. induction H2; constructor; auto. Qed.

Lemma sget_sput {V} k k' (v : V) l : sget String.eqb k (sput String.eqb k' v l) =
  if String.eqb k' k then Some v else sget String.eqb k l.
Proof.
  unfold sget, sput, sdelete. induction l as [|[a b] l IH].
  - cbn. destruct (String.eqb k' k); reflexivity.
  - cbn [filter]. unfold other at 1. cbn [fst]. destruct (String.eqb_spec a k') as [->|N]; cbn [negb app find fst].
    + etransitivity; [exact IH|]. destruct (String.eqb k' k); reflexivity.
    + destruct (String.eqb_spec a k) as [->|N2]; [|exact IH].
      destruct (String.eqb_spec k' k) as [->|]; [congruence|reflexivity].
Qed.

Lemma mputs_snoc {V} kvs k (v : V) m : mputs (kvs ++ [(k, v)]) m = mput k v (mputs kvs m).
Proof. unfold mputs. rewrite fold_left_app. reflexivity. Qed.

(** Looking up a name in a map read from pairs. *)
Lemma sget_mputs {V} (P : node -> V -> Prop) s : forall l kvs b,
  Forall2 (fun e kv => value (fst e) = fst kv /\ P (snd e) (snd kv)) l kvs ->
  (forall v, sget String.eqb s (ents (mputs kvs (mkMap [] b))) = Some v -> exists m, last_value l s m /\ P m v) /\
  (forall m, last_value l s m -> exists v, sget String.eqb s (ents (mputs kvs (mkMap [] b))) = Some v /\ P m v).
Proof.
  intros l. induction l as [|e l IH] using rev_ind; intros kvs b H.
  - inversion H; subst. split; [discriminate|]. intros m [pre [k [post [E _]]]]. destruct pre; discriminate.
  - apply Forall2_app_inv_l in H as [k1 [k2 [H1 [H2 ->]]]]. inversion H2 as [|x kv y z [Hk Hp] H3]; subst. inversion H3; subst.
    destruct kv as [k v]. cbn [fst snd] in *. rewrite mputs_snoc. cbn [mput ents]. rewrite sget_sput.
    destruct (IH k1 b H1) as [A B]. destruct e as [ke ve]. cbn [fst snd] in *. subst k.
    destruct (String.eqb_spec (value ke) s) as [E|N].
    + split.
      * intros v' Ev. injection Ev as <-. exists ve. split; [|exact Hp].
        exists l, ke, []. split; [reflexivity|]. split; [exact E|]. intros [? [[] _]].
      * intros m [pre [k [post [El [Ek Hn]]]]]. exists v. split; [reflexivity|].
        destruct post as [|e' post] using rev_ind.
        { apply app_inj_tail in El as [_ El]. injection El as <- <-. exact Hp. }
        exfalso. apply Hn. exists (ke, ve). split; [|exact E].
        change ((k, m) :: post ++ [e']) with (((k, m) :: post) ++ [e']) in El. rewrite app_assoc in El.
        apply app_inj_tail in El as [_ <-]. apply in_or_app. right; left; reflexivity.
    + split.
      * intros v' Ev. apply A in Ev as [m [[pre [k [post [El [Ek Hn]]]]] Pm]]. exists m. split; [|exact Pm].
        exists pre, k, (post ++ [(ke, ve)]). split; [rewrite El, <- app_assoc; reflexivity|]. split; [exact Ek|].
        intros [e' [Hi He]]. apply in_app_or in Hi as [Hi|[<-|[]]]; [apply Hn; exists e'; auto|]. exact (N He).
      * intros m [pre [k [post [El [Ek Hn]]]]]. apply B.
        destruct post as [|e' post _] using rev_ind.
        { apply app_inj_tail in El as [_ El]. injection El as <- <-. congruence. }
        change ((k, m) :: post ++ [e']) with (((k, m) :: post) ++ [e']) in El. rewrite app_assoc in El.
        apply app_inj_tail in El as [El _]. exists pre, k, post. split; [exact El|]. split; [exact Ek|].
        intros [e2 [Hi He]]. apply Hn. exists e2. split; [apply in_or_app; auto|exact He].
Qed.

Section Walk.
  Context {F : FloatIO}.

  Definition prop_pair (e : node * node) (kv : string * dtype) : Prop :=
    denotes_string (fst e) (fst kv) /\ hat (snd e) = Ok (snd kv) /\ (forall b, snd kv <> TBase b).

  Lemma fold_props kd l : forall m v, fold_res (stepper hat kd FProps) (VTypes m) l = Ok v ->
    exists kvs, Forall2 prop_pair (flat_map (fun e => match snd e with Map _ ps => ps | _ => [] end) l) kvs /\
                v = VTypes (mputs kvs m).
  Proof.
    induction l as [|e l IH]; intros m v H.
    - injection H as <-. exists []. split; [constructor|reflexivity].
    - cbn in H. apply bind_ok in H as [w [Hw H]]. unfold stepper in Hw. cbn [step] in Hw.
      apply bind_ok in Hw as [m1 [Hm Hw]]. injection Hw as <-.
      apply read_properties_iff in Hm as [t [ps [kvs [En [Hp ->]]]]].
      apply IH in H as [kvs' [Hl ->]]. exists (kvs ++ kvs'). cbn [flat_map]. rewrite En.
      split; [apply Forall2_app; assumption|]. unfold mputs. rewrite fold_left_app. reflexivity.
  Qed.

  Lemma flat_map_filter {A B} (p : A -> bool) (g : A -> list B) l :
    flat_map g (filter p l) = flat_map (fun e => if p e then g e else []) l.
  Proof. induction l as [|a l IH]; simpl; [reflexivity|]. destruct (p a); simpl; rewrite IH; reflexivity. Qed.

  Lemma fold_items kd l : forall o v, fold_res (stepper hat kd FItems) (VOptType o) l = Ok v ->
    (l = [] /\ v = VOptType o) \/
    exists l' e d, l = l' ++ [e] /\ hat (snd e) = Ok d /\ v = VOptType (Some d).
  Proof.
    destruct l as [|e l _] using rev_ind; intros o v H; [left; injection H as <-; auto|]. right.
    rewrite fold_res_app in H. apply bind_ok in H as [w [_ H]]. cbn in H. apply bind_ok in H as [w' [Hw H]].
    injection H as <-. unfold stepper in Hw. cbn [step] in Hw.
    destruct w; try discriminate; apply bind_ok in Hw as [d [Hd Hw]]; injection Hw as <-; exists l, e, d; auto.
  Qed.

  (** filter keeps the last one *)
  Lemma filter_last s (l : list (node * node)) l' k m :
    filter (fun e => String.eqb (value (fst e)) s) l = l' ++ [(k, m)] -> value k = s /\ last_value l s m.
  Proof.
    revert l' k m. induction l as [|e l IH] using rev_ind; intros l' k m H; [destruct l'; discriminate|].
    rewrite filter_app in H. cbn [filter] in H. destruct (String.eqb_spec (value (fst e)) s) as [E|N].
    - apply app_inj_tail in H as [_ ->]. split; [exact E|]. exists l, k, []. repeat split; [exact E|]. intros [? [[] _]].
    - rewrite app_nil_r in H. destruct (IH _ _ _ H) as [Hk [pre [k' [post [-> [Hk' Hn]]]]]]. split; [exact Hk|].
      exists pre, k', (post ++ [e]). split; [rewrite <- app_assoc; reflexivity|]. split; [exact Hk'|].
      intros [e' [Hi He]]. apply in_app_or in Hi as [Hi|[<-|[]]]; [apply Hn; exists e'; auto|exact (N He)].
  Qed.

  Lemma last_value_filter s (l : list (node * node)) m : last_value l s m -> exists l' k,
    filter (fun e => String.eqb (value (fst e)) s) l = l' ++ [(k, m)].
  Proof.
    intros [pre [k [post [-> [Hk Hn]]]]]. rewrite filter_app. cbn [filter fst].
    rewrite (proj2 (String.eqb_eq _ _) Hk). rewrite (filter_none _ post); [eauto|].
    intros e He. apply String.eqb_neq. intros E. apply Hn. exists e. auto.
  Qed.

  Lemma one_hop p n d d' : hat n = Ok d ->
    (type_hop p d = Some d' <-> d_kind d = hop_kind p /\ exists m, node_hop p n m /\ hat m = Ok d').
  Proof.
    intros H. pose proof (hat_shaped n d H) as Hsh.
    assert (Hkind : forall x, type_hop p d = Some x -> d_kind d = hop_kind p).
    { intros x Hx. destruct d as [b|b x0 fs c s]; [destruct p; discriminate|].
      unfold shaped in Hsh. unfold d_kind in *. cbn [d_base] in *.
      destruct p; cbn in Hx; destruct s; try discriminate; destruct (b_kind b); try discriminate Hsh; reflexivity. }
    destruct (is_string n) eqn:Es.
    { assert (Hn : forall m, ~ node_hop p n m).
      { intros m [t [l [-> [Ht _]]]]. unfold is_string in Es. cbn [node_tag] in Es. destruct t; try discriminate Es. apply Ht. reflexivity. }
      rewrite hat_eq in H. unfold hat_body in H. rewrite Es in H. injection H as <-. rewrite type_to_kind_eq.
      split; [|intros [_ [m [Hm _]]]; destruct (Hn m Hm)].
      destruct p; destruct (kind_of (value n)); discriminate. }
    destruct n as [t v|t l|t l].
    - rewrite hat_eq in H. unfold hat_body in H. rewrite Es in H. destruct t; try discriminate. injection H as <-.
      split; [destruct p; discriminate|]. intros [_ [m [[t [l [E _]]] _]]]. discriminate.
    - rewrite hat_eq in H. unfold hat_body in H. rewrite Es in H. discriminate.
    - assert (Ht : t <> TStr) by (intros ->; discriminate).
      destruct (hat_start t l d Ht H) as [sc [Hsift [Hf [Hs Hd]]]].
      set (d0 := set_schema sc (new_type (d_kind d))) in *.
      destruct p as [|name].
      + split.
        * intros Hx. pose proof (Hkind _ Hx) as Hk. split; [exact Hk|]. cbn [hop_kind] in Hk.
          assert (Hin : In FItems (facets_of (d_kind d0))) by (rewrite Hd, Hk; simpl; auto 8).
          assert (Ho : getf FItems d0 = Some (VOptType None)) by (unfold d0; rewrite Hk; reflexivity).
          destruct (fold_fields _ _ _ _ Hf FItems _ Ho) as [v [Hv Hfold]].
          rewrite (filter_ext _ _ (fun e => aims_facet d0 FItems "items" e Hs Hin eq_refl)) in Hfold.
          cbn [type_hop] in Hx. rewrite Hv in Hx.
          apply fold_items in Hfold as [[_ ->]|[l' [[k m] [d2 [El [Hd2 ->]]]]]]; [discriminate|].
          injection Hx as <-. exists m. split; [|exact Hd2]. exists t, l. split; [reflexivity|]. split; [exact Ht|].
          exact (proj2 (filter_last _ _ _ _ _ El)).
        * intros [Hk [m [[t' [l0 [E [_ Hl]]]] Hm]]]. injection E as <- <-. cbn [hop_kind] in Hk.
          assert (Hin : In FItems (facets_of (d_kind d0))) by (rewrite Hd, Hk; simpl; auto 8).
          assert (Ho : getf FItems d0 = Some (VOptType None)) by (unfold d0; rewrite Hk; reflexivity).
          destruct (fold_fields _ _ _ _ Hf FItems _ Ho) as [v [Hv Hfold]].
          rewrite (filter_ext _ _ (fun e => aims_facet d0 FItems "items" e Hs Hin eq_refl)) in Hfold.
          cbn [type_hop]. rewrite Hv. apply last_value_filter in Hl as [l1 [k El]].
          apply fold_items in Hfold as [[E _]|[l' [e [d2 [E2 [Hd2 ->]]]]]].
          { rewrite El in E. destruct l1; discriminate. }
          rewrite El in E2. apply app_inj_tail in E2 as [_ <-]. cbn [snd] in Hd2. congruence.
      + assert (Hcore : d_kind d = TyObject -> exists kvs,
                  Forall2 prop_pair (property_pairs l) kvs /\ getf FProps d = Some (VTypes (mputs kvs (mkMap [] false)))).
        { intros Hk.
          assert (Hin : In FProps (facets_of (d_kind d0))) by (rewrite Hd, Hk; simpl; auto 8).
          assert (Ho : getf FProps d0 = Some (VTypes (mkMap [] false))) by (unfold d0; rewrite Hk; reflexivity).
          destruct (fold_fields _ _ _ _ Hf FProps _ Ho) as [v [Hv Hfold]].
          rewrite (filter_ext _ _ (fun e => aims_facet d0 FProps "properties" e Hs Hin eq_refl)) in Hfold.
          apply fold_props in Hfold as [kvs [Hp ->]]. rewrite flat_map_filter in Hp. exists kvs. split; assumption. }
        assert (Hweak : forall kvs, Forall2 prop_pair (property_pairs l) kvs ->
           Forall2 (fun e kv => value (fst e) = fst kv /\ hat (snd e) = Ok (snd kv)) (property_pairs l) kvs).
        { intros kvs Hp. eapply Forall2_impl; [|exact Hp]. intros e kv [[_ A] [B _]]. auto. }
        split.
        * intros Hx. pose proof (Hkind _ Hx) as Hk. split; [exact Hk|]. destruct (Hcore Hk) as [kvs [Hp Hv]].
          cbn [type_hop] in Hx. rewrite Hv in Hx.
          destruct (sget_mputs (fun m d => hat m = Ok d) name _ _ false (Hweak _ Hp)) as [A _].
          apply A in Hx as [m [Hl Hm]]. exists m. split; [|exact Hm]. exists t, l. auto.
        * intros [Hk [m [[t' [l0 [E [_ Hl]]]] Hm]]]. injection E as <- <-. destruct (Hcore Hk) as [kvs [Hp Hv]].
          cbn [type_hop]. rewrite Hv.
          destruct (sget_mputs (fun m d => hat m = Ok d) name _ _ false (Hweak _ Hp)) as [_ B].
          apply B in Hl as [v [Hv1 Hv2]]. congruence.
  Qed.

  Lemma whole_path ps : forall n d d', hat n = Ok d ->
    (walk ps d = Some d' <-> exists m, at_path ps n m /\ hat m = Ok d').
  Proof.
    induction ps as [|p ps IH]; intros n d d' H; cbn [walk].
    - split.
      + intros E. injection E as <-. exists n. split; [constructor|exact H].
      + intros [m [Hm Hd]]. inversion Hm; subst. congruence.
    - split.
      + destruct (type_hop p d) as [d1|] eqn:E; [|discriminate]. intros Hw.
        apply (one_hop p n d d1 H) in E as [Hk [m [Hn Hm]]]. apply (IH m d1 d' Hm) in Hw as [m' [Hp Hd]].
        exists m'. split; [|exact Hd]. econstructor; eassumption.
      + intros [m [Hm Hd]]. inversion Hm as [|p0 ps0 n0 n' m0 d0 Hd0 Hk Hn Hp]; subst.
        assert (d0 = d) by congruence. subst d0.
        assert (Hn' : exists d1, hat n' = Ok d1 /\ type_hop p d = Some d1).
        { (* the step must have been read *)
          assert (Hread : exists d1, hat n' = Ok d1).
          { inversion Hp; subst; eauto. }
          destruct Hread as [d1 Hd1]. exists d1. split; [exact Hd1|]. apply (one_hop p n d d1 H). eauto. }
        destruct Hn' as [d1 [Hd1 ->]]. apply (IH n' d1 d' Hd1). eauto.
  Qed.

  (** The node at the end of a path of a definition that is read is itself read. *)
  Lemma path_reads ps : forall n m d, hat n = Ok d -> at_path ps n m -> exists d', hat m = Ok d' /\ walk ps d = Some d'.
  Proof.
    induction ps as [|p ps IH]; intros n m d H Hp; inversion Hp as [|p0 ps0 n0 n' m0 d0 Hd0 Hk Hn Hp']; subst.
    - exists d. auto.
    - assert (d0 = d) by congruence. subst d0.
      assert (Hread : exists d1, hat n' = Ok d1 /\ type_hop p d = Some d1).
      { destruct ps as [|p2 ps2].
        - inversion Hp'; subst. clear IH Hp Hp'. destruct Hn as [t [l [-> [Ht Hl]]]].
          destruct (hat_start t l d Ht H) as [sc [Hsift [Hf [Hs Hd]]]].
          set (d1 := set_schema sc (new_type (d_kind d))) in *.
          destruct p as [|name]; cbn [hop_kind] in Hk.
          + assert (Hin : In FItems (facets_of (d_kind d1))) by (rewrite Hd, Hk; simpl; auto 8).
            assert (Ho : getf FItems d1 = Some (VOptType None)) by (unfold d1; rewrite Hk; reflexivity).
            destruct (fold_fields _ _ _ _ Hf FItems _ Ho) as [v [Hv Hfold]].
            rewrite (filter_ext _ _ (fun e => aims_facet d1 FItems "items" e Hs Hin eq_refl)) in Hfold.
            cbn [type_hop]. rewrite Hv. apply last_value_filter in Hl as [l1 [k El]].
            apply fold_items in Hfold as [[E _]|[l' [e [d2 [E2 [Hd2 ->]]]]]].
            { rewrite El in E. destruct l1; discriminate. }
            rewrite El in E2. apply app_inj_tail in E2 as [_ <-]. eauto.
          + assert (Hin : In FProps (facets_of (d_kind d1))) by (rewrite Hd, Hk; simpl; auto 8).
            assert (Ho : getf FProps d1 = Some (VTypes (mkMap [] false))) by (unfold d1; rewrite Hk; reflexivity).
            destruct (fold_fields _ _ _ _ Hf FProps _ Ho) as [v [Hv Hfold]].
            rewrite (filter_ext _ _ (fun e => aims_facet d1 FProps "properties" e Hs Hin eq_refl)) in Hfold.
            apply fold_props in Hfold as [kvs [Hps ->]]. rewrite flat_map_filter in Hps.
            assert (Hw : Forall2 (fun e kv => value (fst e) = fst kv /\ hat (snd e) = Ok (snd kv)) (property_pairs l) kvs).
            { eapply Forall2_impl; [|exact Hps]. intros e kv [[_ A] [B _]]. auto. }
            destruct (sget_mputs (fun m d => hat m = Ok d) name _ _ false Hw) as [_ B].
            apply B in Hl as [v [Hv1 Hv2]]. exists v. split; [exact Hv2|]. cbn [type_hop]. rewrite Hv. exact Hv1.
        - inversion Hp' as [|p0 ps0 n0 n2 m0 d1 Hd1 Hk1 Hn1 Hp1]; subst. exists d1. split; [exact Hd1|].
          apply (one_hop p n d d1 H). eauto. }
      destruct Hread as [d1 [Hd1 E]]. destruct (IH n' m d1 Hd1 Hp') as [d' [Hm Hw]]. exists d'. split; [exact Hm|].
      cbn [walk]. rewrite E. exact Hw.
  Qed.
End Walk.
