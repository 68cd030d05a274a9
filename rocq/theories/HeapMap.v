(** Adding a property through the map that Properties() answers (C63, C64). *)
From Coq Require Import SpecFloat Relations Lia.
From Verif Require Import Base Num OMap OMapSpec Keys Yaml Values Assign Formats Meta Out Xml Example DataType Marshal Doc Api Library Setters Heap
  AssignProofs TypeFacts Fields FieldProofs FacetSpec FacetProofs DocProofs TypeWrite OrderProofs PathProofs HeapSpec HeapProofs HeapEdit HeapLoop.

Section Edit.
  Variables (w : world) (m : nat) (mm : amap string nat) (edit : amap string nat -> amap string nat).
  Hypothesis Hm : nth_error (w_maps w) m = Some mm.

  Let w' := h_apply (HMap m edit) w.

  Lemma edited : nth_error (w_maps w') m = Some (edit mm).
  Proof. unfold w'. cbn [h_apply]. rewrite Hm. cbn [put_map w_maps]. exact (set_nth_same _ _ _ _ Hm). Qed.

  Lemma others_same a : a <> AMap m -> agree w w' a.
  Proof.
    intros N. unfold w'. cbn [h_apply]. rewrite Hm. destruct a as [r|m'|f]; cbn; try reflexivity. apply set_nth_other. congruence.
  Qed.

  Lemma agree_holds a b : agree w w' a -> (holds w' a b <-> holds w a b).
  Proof.
    intros H. split; intros B; inversion B; subst; cbn [agree] in H.
    1-5: match goal with E : nth_error _ _ = Some _ |- _ => rewrite H in E end; econstructor; eassumption.
    all: match goal with E : nth_error _ _ = Some _ |- _ => rewrite <- H in E end; econstructor; eassumption.
  Qed.

  Lemma agree_exists a : agree w w' a -> exists_in w a -> exists_in w' a.
  Proof. destruct a as [r|m'|f]; cbn; intros H E; apply nth_error_Some; rewrite H; apply nth_error_Some; exact E. Qed.

  (** Where the map is not below, nothing changes. *)
  Lemma fine_away a : fine w a -> ~ below w a (AMap m) -> fine w' a.
  Proof.
    intros [A C] N. induction A as [a _ IH].
    assert (G : agree w w' a) by (apply others_same; intros ->; apply N; apply rt_refl).
    apply fine_intro; [apply agree_exists; [exact G|apply C; apply rt_refl]|]. intros b Hb. apply (agree_holds a b G) in Hb. apply (IH b Hb).
    - exact (complete_below w a b C (rt_step _ _ _ _ Hb)).
    - intros X. apply N. eapply rt_trans; [apply rt_step; exact Hb|exact X].
  Qed.

  Hypothesis new_ones : forall e, In e (ents (edit mm)) -> In e (ents mm) \/ fine w (AType (snd e)) /\ ~ below w (AType (snd e)) (AMap m).

  Lemma fine_edited : fine w (AMap m) -> fine w' (AMap m).
  Proof.
    intros Fm. apply (fine_map w' m (edit mm) edited). intros [k r] He. cbn [snd]. destruct (new_ones _ He) as [Old|[Fr N]]; [|exact (fine_away _ Fr N)].
    assert (Hh : holds w (AMap m) (AType r)) by (eapply holds_type; eassumption).
    apply fine_away.
    - destruct Fm as [A C]. split; [exact (acc_below _ _ _ A (rt_step _ _ _ _ Hh))|exact (complete_below _ _ _ C (rt_step _ _ _ _ Hh))].
    - intros B. apply (acc_no_loop _ _ (proj1 Fm)). eapply strictly_below_trans; [apply t_step; exact Hh|exact B].
  Qed.

  Lemma fine_above a : fine w a -> fine w' a.
  Proof.
    intros [A C]. induction A as [a H IH]. assert (D : {a = AMap m} + {a <> AMap m}) by (decide equality; apply Nat.eq_dec). destruct D as [->|D].
    - apply fine_edited. split; [constructor; exact H|exact C].
    - pose proof (others_same a D) as G. apply fine_intro; [apply agree_exists; [exact G|apply C; apply rt_refl]|].
      intros b Hb. apply (agree_holds a b G) in Hb. apply (IH b Hb). exact (complete_below w a b C (rt_step _ _ _ _ Hb)).
  Qed.
End Edit.

Lemma fine_tree w r : fine w (AType r) -> exists d, forall n, (List.length (w_types w) <= n)%nat -> tree n w r = Some d.
Proof.
  intros [A C]. destruct (no_cycle_tree w r C) as [d H]; [intros b Hb; apply acc_no_loop; exact (acc_below _ _ _ A Hb)|].
  exists d. intros n Hn. exact (tree_deeper _ _ _ _ _ Hn H).
Qed.

(** The value behind a reference does not depend on the depth. *)
Lemma tree_one n1 n2 w r d1 d2 : tree n1 w r = Some d1 -> tree n2 w r = Some d2 -> d1 = d2.
Proof.
  intros H1 H2. destruct (Nat.le_ge_cases n1 n2) as [L|L]; [apply (tree_deeper _ _ _ _ _ L) in H1|apply (tree_deeper _ _ _ _ _ L) in H2]; congruence.
Qed.

Definition put_entry (k : string) (r : nat) (mm : amap string nat) : amap string nat := mkMap (sput String.eqb k r (ents mm)) (oord mm).

Lemma hop_property n w r d b x f c m mm mn mx ad di dv k : tree (S n) w r = Some d ->
  nth_error (w_types w) r = Some (HExt b x f c (HObject m mn mx ad di dv)) -> nth_error (w_maps w) m = Some mm ->
  type_hop (Prop_ k) d = obind (sget String.eqb k (ents mm)) (tree n w).
Proof.
  intros H Ht Hm. apply tree_inv in H as [[b' [E ->]]|[b' [x' [f' [c' [s [f'' [s' [E [Ef [Es ->]]]]]]]]]]].
  - exfalso. apply load_inv in E as [[b1 [H1 _]]|[b1 [x1 [f1 [c1 [s1 [fm [fs [sp [_ [_ [_ [_ X]]]]]]]]]]]]]; [congruence|discriminate].
  - apply load_inv in E as [[b1 [_ X]]|[b1 [x1 [f1 [c1 [s1 [fm [fs [sp [H1 [H2 [H3 [H4 X]]]]]]]]]]]]]; [discriminate|]. injection X as -> -> -> -> ->.
    rewrite Ht in H1. injection H1 as <- <- <- <- <-. cbn [load_spec] in H4. rewrite Hm in H4. injection H4 as <-. cbn [in_spec] in Es.
    destruct (map_some (tree n w) mm) as [qs|] eqn:Em; [|discriminate]. injection Es as <-. cbn. exact (map_some_get _ _ _ k Em).
Qed.

(** Properties().Put(k, t): every definition that has this map now has the property, and its other properties are what they were. *)
Lemma property_put w m mm k r1 n1 d1 : nth_error (w_maps w) m = Some mm -> tree n1 w r1 = Some d1 -> ~ below w (AType r1) (AMap m) ->
  forall r n d b x f c mn mx ad di dv, nth_error (w_types w) r = Some (HExt b x f c (HObject m mn mx ad di dv)) -> tree n w r = Some d ->
  exists n' d2, tree n' (h_apply (HMap m (put_entry k r1)) w) r = Some d2 /\ type_hop (Prop_ k) d2 = Some d1 /\
    forall k', k' <> k -> type_hop (Prop_ k') d2 = type_hop (Prop_ k') d.
Proof.
  intros Hm T1 N r n d b x f c mn mx ad di dv Hr T.
  assert (New : forall e, In e (ents (put_entry k r1 mm)) -> In e (ents mm) \/ fine w (AType (snd e)) /\ ~ below w (AType (snd e)) (AMap m)).
  { intros e He. cbn in He. unfold sput in He. apply in_app_or in He as [He|[<-|[]]]; [left; apply filter_In in He; tauto|].
    right. cbn [snd]. split; [exact (tree_fine _ _ _ _ T1)|exact N]. }
  pose proof (tree_fine _ _ _ _ T) as Fr. pose proof (tree_fine _ _ _ _ T1) as F1. set (w' := h_apply (HMap m (put_entry k r1)) w).
  destruct (fine_tree w' r (fine_above w m mm _ Hm New _ Fr)) as [d2 T2].
  assert (Hr' : nth_error (w_types w') r = Some (HExt b x f c (HObject m mn mx ad di dv))) by (rewrite <- Hr; apply (others_same w m mm _ Hm (AType r)); discriminate).
  pose proof (edited w m mm (put_entry k r1) Hm) as Hm'. fold w' in Hm'.
  (* a depth that is enough for everything *)
  set (N0 := (n1 + n + List.length (w_types w'))%nat). exists (S N0), d2. split; [apply T2; lia|].
  pose proof (T2 (S N0)) as T2'. specialize (T2' ltac:(lia)).
  pose proof (tree_deeper n w r d (S N0) ltac:(lia) T) as T'.
  assert (Away : forall r2, ~ below w (AType r2) (AMap m) -> fine w (AType r2) -> tree N0 w' r2 = tree N0 w r2).
  { intros r2 N2 _. apply tree_agree. intros a Ha. apply (others_same w m mm _ Hm). intros ->. exact (N2 Ha). }
  split.
  - rewrite (hop_property N0 w' r d2 b x f c m _ mn mx ad di dv k T2' Hr' Hm'). cbn [put_entry ents]. rewrite sget_sput, String.eqb_refl. cbn [obind].
    rewrite (Away r1 N F1). exact (tree_deeper n1 w r1 d1 N0 ltac:(lia) T1).
  - intros k' Hk. rewrite (hop_property N0 w' r d2 b x f c m _ mn mx ad di dv k' T2' Hr' Hm'), (hop_property N0 w r d b x f c m mm mn mx ad di dv k' T' Hr Hm).
    cbn [put_entry ents]. rewrite sget_sput. destruct (String.eqb_spec k' k) as [->|_]; [congruence|]. destruct (String.eqb_spec k k') as [->|_]; [congruence|].
    destruct (sget String.eqb k' (ents mm)) as [r2|] eqn:G; [|reflexivity]. cbn [obind].
    assert (Hh : holds w (AMap m) (AType r2)).
    { unfold sget in G. destruct (find (fun e => String.eqb (fst e) k') (ents mm)) as [[k2 v]|] eqn:Fe; [|discriminate]. injection G as <-. apply find_some in Fe as [Fe _].
      eapply holds_type; eassumption. }
    assert (Bm : below w (AType r) (AMap m)) by (apply rt_step; eapply holds_properties; exact Hr).
    apply Away.
    + intros B. apply (acc_no_loop w (AMap m) (acc_below _ _ _ (proj1 Fr) Bm)). eapply strictly_below_trans; [apply t_step; exact Hh|exact B].
    + split; [eapply acc_below; [exact (proj1 Fr)|eapply rt_trans; [exact Bm|apply rt_step; exact Hh]]|].
      eapply complete_below; [exact (proj2 Fr)|eapply rt_trans; [exact Bm|apply rt_step; exact Hh]].
Qed.

(** If the added definition already contains the map, no definition with this map can be written any more. *)
Lemma first_arrival w m mm edit a : nth_error (w_maps w) m = Some mm -> below w a (AMap m) -> below (h_apply (HMap m edit) w) a (AMap m).
Proof.
  intros Hm H. apply clos_rt_rt1n_iff in H. remember (AMap m) as e eqn:E. induction H as [a|a b e Hab _ IH]; [apply rt_refl|]. subst e.
  assert (D : {a = AMap m} + {a <> AMap m}) by (decide equality; apply Nat.eq_dec). destruct D as [->|D]; [apply rt_refl|].
  eapply rt_trans; [apply rt_step; apply (agree_holds w m edit a b (others_same w m mm edit Hm a D)); exact Hab|exact (IH eq_refl)].
Qed.

Lemma property_cycle {F : FloatIO} w m mm k r1 r : nth_error (w_maps w) m = Some mm -> below w (AType r1) (AMap m) -> below w (AType r) (AMap m) ->
  forall depth y, h_to_yaml depth (h_apply (HMap m (put_entry k r1)) w) r <> Ok y.
Proof.
  intros Hm B1 Br depth y H. apply written_finite in H as [_ H]. apply (H (AMap m) (first_arrival w m mm _ _ Hm Br)).
  eapply strictly_below_trans; [apply t_step|exact (first_arrival w m mm _ _ Hm B1)].
  eapply holds_type; [exact (edited w m mm _ Hm)|]. cbn. unfold sput. apply in_or_app. right. left. reflexivity.
Qed.
