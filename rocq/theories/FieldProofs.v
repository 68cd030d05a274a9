(** What reading a mapping does to each field of a type (C25, C26, C28, C44, C58, C59). *)
From Coq Require Import SpecFloat Permutation.
From Verif Require Import Base Num OMap OMapSpec Keys Yaml Values Assign Formats Meta Out Xml Example DataType Marshal
  AssignProofs TypeFacts Fields.

Definition mputs {V} (kvs : list (string * V)) (m : amap string V) : amap string V :=
  fold_left (fun m kv => mput (fst kv) (snd kv) m) kvs m.

Lemma read_amap_ok {V} (dec : node -> res V) l : forall m m',
  fold_res (read_amap_pair dec) m l = Ok m' <-> exists kvs, Forall2 (accepts dec) l kvs /\ m' = mputs kvs m.
Proof.
  induction l as [|e l IH]; intros m m'; simpl.
  - split.
    + intros H. injection H as <-. exists []. split; [constructor|reflexivity].
    + intros [kvs [H ->]]. inversion H; reflexivity.
  - unfold read_amap_pair at 1. split.
    + intros H. rewrite bind_ok in H. destruct H as [m1 [H1 H]].
      apply bind_ok in H1 as [k [Hk H1]]. apply bind_ok in H1 as [v [Hv H1]]. injection H1 as <-.
      apply IH in H as [kvs [Hl ->]]. exists ((k, v) :: kvs). split; [|reflexivity].
      constructor; [|exact Hl]. split; [apply denotes_string_iff; exact Hk|exact Hv].
    + intros [kvs [H ->]]. inversion H as [|x kv y kvs' [Hk Hv] Hl E1 E2]; subst.
      apply denotes_string_iff in Hk. rewrite Hk. simpl. rewrite Hv. simpl. apply IH. eauto.
Qed.

Lemma read_amap_map {V} (dec : node -> res V) m n m' :
  read_amap dec m n = Ok m' <->
  exists t l kvs, n = Map t l /\ Forall2 (accepts dec) l kvs /\ m' = mputs kvs m.
Proof.
  destruct n as [t v|t l|t l]; simpl; try (split; [discriminate|intros [t' [l' [kvs [E _]]]]; discriminate]).
  rewrite read_amap_ok. split.
  - intros [kvs [H1 H2]]. exists t, l, kvs. auto.
  - intros [t' [l' [kvs [E [H1 H2]]]]]. injection E as <- <-. eauto.
Qed.

Section Step.
  Context {F : FloatIO}.
  Variable rd : node -> res dtype.

  Lemma step_sort kd f key val d old v :
    getf f d = Some old -> step rd kd f key val old = Ok v -> same_sort v old = true.
  Proof.
    intros Hg Hs.
    assert (Hb : forall (A : Type) (r : res A) (g : A -> fval), (forall a, same_sort (g a) old = true) ->
               (do a <- r; Ok (g a)) = Ok v -> same_sort v old = true).
    { intros A r g Ha Hr. apply bind_ok in Hr as [a [_ Hr]]. injection Hr as <-. apply Ha. }
    destruct d as [b|b x fs c s].
    - destruct f; simpl in Hg; try discriminate; injection Hg as <-; simpl in Hs.
      + eapply Hb; [|exact Hs]. reflexivity.
      + injection Hs as <-. reflexivity.
    - destruct f; simpl in Hg; try (injection Hg as <-; simpl in Hs; try discriminate;
        first [eapply Hb; [|exact Hs]; reflexivity
              |injection Hs as <-; reflexivity
              |destruct (has_example kd); [eapply Hb; [|exact Hs]; reflexivity|discriminate]]);
        destruct s; simpl in Hg; try discriminate; injection Hg as <-; simpl in Hs;
        first [eapply Hb; [|exact Hs]; reflexivity|injection Hs as <-; reflexivity].
  Qed.

  Lemma target_has d key f : target d key = Some f -> exists old, getf f d = Some old.
  Proof.
    unfold target. destruct d as [b|b x fs c s].
    - unfold base_target. intros H; injection H as <-. simpl.
      destruct (String.eqb (value key) "type" || String.eqb (value key) "schema"); simpl; eauto.
    - unfold common_target.
      repeat (match goal with |- (match (if ?e then _ else _) with _ => _ end) = _ -> _ =>
                destruct e; [intros H; injection H as <-; simpl; eauto|] end).
      destruct (spec_target s (value key)) as [g|] eqn:E.
      { intros H; injection H as <-. destruct s; simpl in E;
          repeat match type of E with (if ?e then _ else _) = _ => destruct e end; try discriminate;
          injection E as <-; simpl; eauto. }
      unfold ext_target.
      repeat (match goal with |- (match (if ?e then _ else _) with _ => _ end) = _ -> _ =>
                destruct e; [intros H; injection H as <-; simpl; eauto|] end).
      assert (Hb : forall k, exists old, getf (base_target k) (TExt b x fs c s) = Some old).
      { intros k. unfold base_target. destruct (String.eqb k "type" || String.eqb k "schema"); simpl; eauto. }
      destruct (is_string key); [|intros H; injection H as <-; apply Hb].
      destruct (value key) as [|a t] eqn:Ek; [discriminate|].
      destruct (Ascii.eqb a "("); intros H; injection H as <-; [simpl; eauto|apply Hb].
  Qed.

  (** One key, in terms of fields. *)
  Lemma assign_ok d key val d' :
    type_assign rd d (key, val) = Ok d' ->
    exists f old v, target d key = Some f /\ getf f d = Some old /\ step rd (d_kind d) f key val old = Ok v /\
      d' = setf f v d /\ getf f d' = Some v /\ (forall g, g <> f -> getf g d' = getf g d).
  Proof.
    rewrite type_assign_step. destruct (target d key) as [f|] eqn:Et; [|discriminate].
    unfold step_in. destruct (getf f d) as [old|] eqn:Eg; [|discriminate].
    intros H. apply bind_ok in H as [v [Hv H]]. injection H as <-.
    exists f, old, v. repeat split; try assumption; try reflexivity.
    - apply getf_setf_same. exists old. split; [exact Eg|]. eapply step_sort; eassumption.
    - intros g Hg. apply getf_setf_other. congruence.
  Qed.

  Lemma assign_kind d e d' : type_assign rd d e = Ok d' -> d_kind d' = d_kind d /\ same_shape d' d = true.
  Proof.
    destruct e as [key val]. intros H. apply assign_ok in H as [f [old [v [_ [_ [_ [-> _]]]]]]].
    rewrite d_kind_setf. split; [reflexivity|apply same_shape_setf].
  Qed.

  Lemma fold_kind l : forall d d', fold_res (type_assign rd) d l = Ok d' ->
    d_kind d' = d_kind d /\ same_shape d' d = true.
  Proof.
    induction l as [|e l IH]; intros d d' H.
    - simpl in H. injection H as <-. split; [reflexivity|apply same_shape_refl].
    - cbn in H. apply bind_ok in H as [d1 [H1 H]]. apply assign_kind in H1 as [K1 S1].
      apply IH in H as [K S]. split; [congruence|]. eapply same_shape_trans; eassumption.
  Qed.

  (** The keys that belong to a field. *)
  Definition aims (d : dtype) (f : field) (e : node * node) : bool :=
    match target d (fst e) with Some g => field_eqb f g | None => false end.

  Definition stepper (kd : dkind) (f : field) (old : fval) (e : node * node) : res fval :=
    step rd kd f (fst e) (snd e) old.

  Lemma field_eqb_refl f : field_eqb f f = true.
  Proof. unfold field_eqb. destruct (field_dec f f); congruence. Qed.

  Lemma field_eqb_neq f g : f <> g -> field_eqb f g = false.
  Proof. unfold field_eqb. destruct (field_dec f g); congruence. Qed.

  Lemma field_eqb_eq f g : field_eqb f g = true -> f = g.
  Proof. unfold field_eqb. destruct (field_dec f g); congruence. Qed.

  Lemma aims_shape d d' f e : same_shape d' d = true -> aims d' f e = aims d f e.
  Proof. intros H. unfold aims. rewrite (target_shape d' d) by exact H. reflexivity. Qed.

  (** Reading a list of keys is reading, field by field, the keys that belong to the field. *)
  Lemma fold_fields l : forall d0 d, fold_res (type_assign rd) d0 l = Ok d ->
    forall f old, getf f d0 = Some old ->
    exists v, getf f d = Some v /\ fold_res (stepper (d_kind d0) f) old (filter (aims d0 f) l) = Ok v.
  Proof.
    induction l as [|[key val] l IH]; intros d0 d H f old Hf.
    - simpl in H. injection H as <-. exists old. split; [exact Hf|reflexivity].
    - cbn in H. apply bind_ok in H as [d1 [H1 H]].
      pose proof (assign_kind _ _ _ H1) as [K1 S1].
      apply assign_ok in H1 as [g [oldg [vg [Tg [Gg [Sg [E [G1 Go]]]]]]]].
      cbn [filter]. unfold aims at 1. cbn [fst]. rewrite Tg.
      assert (Hfilter : forall f, filter (aims d1 f) l = filter (aims d0 f) l).
      { intros f0. apply filter_ext. intros e. apply aims_shape. exact S1. }
      destruct (field_dec f g) as [->|Hn].
      + rewrite field_eqb_refl. rewrite Gg in Hf. injection Hf as <-.
        destruct (IH d1 d H g vg G1) as [v [Hv Hfold]]. exists v. split; [exact Hv|].
        cbn. unfold stepper at 1. cbn [fst snd]. rewrite Sg. cbn [bind]. rewrite K1, Hfilter in Hfold. exact Hfold.
      + rewrite field_eqb_neq by exact Hn. rewrite <- (Go f Hn) in Hf.
        destruct (IH d1 d H f old Hf) as [v [Hv Hfold]]. exists v. split; [exact Hv|].
        rewrite K1, Hfilter in Hfold. exact Hfold.
  Qed.

  (** ... and conversely. *)
  Lemma fields_fold l : forall d0,
    (forall e, In e l -> target d0 (fst e) <> None) ->
    (forall f old, getf f d0 = Some old ->
       exists v, fold_res (stepper (d_kind d0) f) old (filter (aims d0 f) l) = Ok v) ->
    exists d, fold_res (type_assign rd) d0 l = Ok d.
  Proof.
    induction l as [|[key val] l IH]; intros d0 Ht Hf.
    - exists d0. reflexivity.
    - destruct (target d0 key) as [g|] eqn:Tg; [|destruct (Ht (key, val) (or_introl eq_refl) Tg)].
      destruct (target_has _ _ _ Tg) as [oldg Gg].
      assert (Ha : aims d0 g (key, val) = true) by (unfold aims; cbn [fst]; rewrite Tg; apply field_eqb_refl).
      destruct (Hf g oldg Gg) as [v0 Hv0]. cbn [filter] in Hv0. rewrite Ha in Hv0. cbn in Hv0.
      apply bind_ok in Hv0 as [vg [Hvg Hv0]]. unfold stepper at 1 in Hvg. cbn [fst snd] in Hvg.
      assert (E1 : type_assign rd d0 (key, val) = Ok (setf g vg d0)).
      { rewrite type_assign_step, Tg. unfold step_in. rewrite Gg, Hvg. reflexivity. }
      pose proof (assign_kind _ _ _ E1) as [K1 S1].
      destruct (IH (setf g vg d0)) as [d Hd].
      + intros e He. rewrite (target_shape _ d0) by exact S1. apply Ht. right; exact He.
      + intros f old Hold.
        assert (Hfilter : filter (aims (setf g vg d0) f) l = filter (aims d0 f) l).
        { apply filter_ext. intros e. apply aims_shape. exact S1. }
        rewrite K1, Hfilter. destruct (field_dec f g) as [->|Hn].
        * rewrite getf_setf_same in Hold by (exists oldg; split; [exact Gg|eapply step_sort; eassumption]).
          injection Hold as <-. eauto.
        * rewrite getf_setf_other in Hold by congruence.
          destruct (Hf f old Hold) as [v Hv]. exists v. cbn [filter] in Hv.
          unfold aims at 1 in Hv. cbn [fst] in Hv. rewrite Tg, field_eqb_neq in Hv by exact Hn. exact Hv.
      + exists d. cbn. rewrite E1. exact Hd.
  Qed.
End Step.

(** ** Expanded definitions *)

Lemma hat_map {F : FloatIO} t l d : t <> TStr ->
  hat (Map t l) = Ok d <-> exists d0, sift_type l = Ok d0 /\ fold_res (type_assign hat) d0 l = Ok d.
Proof.
  intros Ht. rewrite hat_eq. unfold hat_body, is_string. cbn [node_tag].
  rewrite <- bind_ok. destruct t; try reflexivity. congruence.
Qed.

(** The type siftType starts from. *)
Lemma sift_start l d0 : sift_type l = Ok d0 ->
  exists k s, d0 = set_schema s (new_type k).
Proof.
  intros H. destruct (has_type_key l) eqn:E.
  - apply split_type_key in E as [pre [k [v [post [-> [H1 H2]]]]]]. rewrite sift_first in H by assumption.
    destruct (is_string v); [injection H as <-; eauto|]. destruct (is_seq v); [discriminate|].
    destruct (node_tag v); try discriminate. injection H as <-. exists TyInclude, "include". reflexivity.
  - rewrite sift_shape in H by exact E. injection H as <-.
    match goal with |- exists k s, new_type ?x = _ => exists x, (kind_name x) end.
    match goal with |- new_type ?x = _ => destruct x; reflexivity end.
Qed.

Lemma hat_shaped {F : FloatIO} n d : hat n = Ok d -> shaped d.
Proof.
  rewrite hat_eq. unfold hat_body. destruct (is_string n).
  - intros H; injection H as <-. rewrite type_to_kind_eq. apply shaped_set_schema, shaped_new.
  - destruct n as [t v|t l|t l].
    + destruct t; try discriminate. intros H; injection H as <-. reflexivity.
    + discriminate.
    + intros H. apply bind_ok in H as [d0 [H0 H]]. apply sift_start in H0 as [k [s ->]].
      apply fold_kind in H as [K S]. unfold shaped. rewrite K, d_kind_set, d_kind_new.
      eapply same_shape_trans; [exact S|]. pose proof (shaped_set_schema s _ (shaped_new k)) as H.
      unfold shaped in H. rewrite d_kind_set, d_kind_new in H. exact H.
Qed.
