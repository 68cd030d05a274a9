(** What a call changes (C63). *)
From Coq Require Import SpecFloat Relations.
From Verif Require Import Base Num OMap OMapSpec Keys Yaml Values Assign Formats Meta Out Xml Example DataType Marshal Doc Api Library Setters Heap
  AssignProofs TypeFacts Fields FieldProofs FacetSpec FacetProofs DocProofs TypeWrite OrderProofs PathProofs HeapSpec HeapProofs.

(** ** Worlds that agree on what is below *)

Definition agree (w w' : world) (a : addr) : Prop :=
  match a with
  | AType r => nth_error (w_types w') r = nth_error (w_types w) r
  | AMap m => nth_error (w_maps w') m = nth_error (w_maps w) m
  | AFacets f => nth_error (w_facets w') f = nth_error (w_facets w) f
  end.

Lemma map_some_ext {A B} (f g : A -> option B) m : (forall e, In e (ents m) -> f (snd e) = g (snd e)) -> map_some f m = map_some g m.
Proof.
  intros H. unfold map_some. f_equal. revert H. generalize (ents m). intros l. induction l as [|e l IH]; intros H; [reflexivity|]. cbn [all_some].
  rewrite (H e (or_introl eq_refl)), IH; [reflexivity|]. intros x Hx. apply H. right. exact Hx.
Qed.

Lemma load_agree w w' r : (forall a, below w (AType r) a -> agree w w' a) -> load w' r = load w r.
Proof.
  intros H. unfold load. rewrite (H (AType r) (rt_refl _ _ _) : nth_error (w_types w') r = _).
  destruct (nth_error (w_types w) r) as [[b|b x f c s]|] eqn:Er; [reflexivity| |reflexivity]. cbn [obind].
  assert (Bf : below w (AType r) (AFacets f)) by (apply rt_step; eapply holds_facets; exact Er).
  rewrite (H _ Bf : nth_error (w_facets w') f = _). destruct (nth_error (w_facets w) f) as [fm|] eqn:Ef; [|reflexivity]. cbn [obind].
  rewrite (map_some_ext (nth_error (w_maps w')) (nth_error (w_maps w)) fm).
  2:{ intros [k m] Hi. apply (H (AMap m)). eapply rt_trans; [exact Bf|]. apply rt_step. eapply holds_map; eassumption. }
  destruct (map_some (nth_error (w_maps w)) fm) as [fs|]; [|reflexivity]. cbn [obind]. f_equal.
  destruct s as [u mn mx it|p mn mx ad di dv|s]; cbn [load_spec]; try reflexivity.
  rewrite (H (AMap p) ltac:(apply rt_step; eapply holds_properties; exact Er) : nth_error (w_maps w') p = _). reflexivity.
Qed.

Definition known (l : list nat) (a : nat) : option nat := if in_dec Nat.eq_dec a l then Some a else None.
Lemma known_in l a : In a l -> known l a = Some a.
Proof. intros H. unfold known. destruct (in_dec Nat.eq_dec a l); [reflexivity|contradiction]. Qed.
Lemma known_eq l a b : known l a = Some b -> a = b /\ In a l.
Proof. unfold known. destruct (in_dec Nat.eq_dec a l); [|discriminate]. intros H. injection H as <-. auto. Qed.

Lemma map_some_same {A} (f : A -> option A) m : (forall e, In e (ents m) -> f (snd e) = Some (snd e)) -> map_some f m = Some m.
Proof.
  intros H. apply map_some_iff. split; [reflexivity|]. revert H. generalize (ents m). intros l. induction l as [|e l IH]; intros H; constructor.
  - split; [reflexivity|]. apply H. left. reflexivity.
  - apply IH. intros x Hx. apply H. right. exact Hx.
Qed.

Lemma full_marshal_parts {F : FloatIO} (ty ty' : nat -> res node) b x f c s o :
  (forall r, In r (parts (ShExt b x f c s)) -> ty r = ty' r) -> full_marshal ty b x f c s o = full_marshal ty' b x f c s o.
Proof.
  intros H. set (l := parts (ShExt b x f c s)) in *. apply (full_marshal_eq ty ty' (known l)).
  - intros a a' E. apply known_eq in E as [<- E]. apply H. exact E.
  - apply map_some_same. intros e He. apply map_some_same. intros e' He'. apply known_in. unfold l. cbn [parts]. apply in_or_app. left.
    apply in_flat_map. exists e. split; [exact He|apply in_map; exact He'].
  - assert (K : forall r, In r (spec_parts s) -> known l r = Some r) by (intros r Hr; apply known_in; unfold l; cbn [parts]; apply in_or_app; right; exact Hr).
    destruct s as [|u mn mx [i|]| | | | |ps mn mx ad di dv|]; cbn [in_spec]; try reflexivity.
    + rewrite (K i (or_introl eq_refl)). reflexivity.
    + rewrite map_some_same; [reflexivity|]. intros e He. apply K. cbn. apply in_map. exact He.
Qed.

Lemma below_part w r sh r' a : load w r = Some sh -> In r' (parts sh) -> below w (AType r') a -> below w (AType r) a.
Proof. intros H1 H2 H3. eapply rt_trans; [apply strictly_then; eapply parts_below; eassumption|exact H3]. Qed.

Lemma tree_agree n : forall w w' r, (forall a, below w (AType r) a -> agree w w' a) -> tree n w' r = tree n w r.
Proof.
  induction n as [|n IH]; intros w w' r H; [reflexivity|]. cbn [tree]. rewrite (load_agree w w' r H). destruct (load w r) as [sh|] eqn:L; [|reflexivity].
  assert (G : forall r', In r' (parts sh) -> tree n w' r' = tree n w r') by (intros r' Hr; apply IH; intros a Ha; apply H; eapply below_part; eassumption).
  destruct sh as [b|b x f c s]; [reflexivity|].
  rewrite (map_some_ext (map_some (tree n w')) (map_some (tree n w)) f).
  2:{ intros e He. apply map_some_ext. intros e' He'. apply G. cbn [parts]. apply in_or_app. left. apply in_flat_map. exists e. split; [exact He|apply in_map; exact He']. }
  destruct (map_some (map_some (tree n w)) f) as [f'|]; [|reflexivity]. cbn [obind].
  assert (K : forall r', In r' (spec_parts s) -> tree n w' r' = tree n w r') by (intros r' Hr; apply G; cbn [parts]; apply in_or_app; right; exact Hr).
  replace (in_spec (tree n w') s) with (in_spec (tree n w) s); [reflexivity|].
  destruct s as [|u mn mx [i|]| | | | |ps mn mx ad di dv|]; cbn [in_spec]; try reflexivity.
  - rewrite (K i (or_introl eq_refl)). reflexivity.
  - rewrite (map_some_ext (tree n w') (tree n w) ps); [reflexivity|]. intros e He. apply K. cbn. apply in_map. exact He.
Qed.

Lemma written_agree {F : FloatIO} n : forall w w' r, (forall a, below w (AType r) a -> agree w w' a) -> h_to_yaml n w' r = h_to_yaml n w r.
Proof.
  induction n as [|n IH]; intros w w' r H; [reflexivity|]. cbn [h_to_yaml]. rewrite (load_agree w w' r H). destruct (load w r) as [sh|] eqn:L; [|reflexivity].
  destruct sh as [b|b x f c s]; [reflexivity|]. f_equal. apply full_marshal_parts. intros r' Hr. apply IH. intros a Ha. apply H. eapply below_part; eassumption.
Qed.

(** ** What a call leaves alone *)

Lemma set_nth_other {A} i (a : A) l : forall j, i <> j -> nth_error (set_nth i a l) j = nth_error l j.
Proof.
  revert i. induction l as [|b l IH]; intros i j H; [destruct i; reflexivity|].
  destruct i as [|i], j as [|j]; cbn; try reflexivity; [congruence|]. apply IH. congruence.
Qed.
Lemma set_nth_same {A} (a b : A) l : forall i, nth_error l i = Some b -> nth_error (set_nth i a l) i = Some a.
Proof. induction l as [|c l IH]; intros [|i] H; cbn in *; try discriminate; [reflexivity|]. apply IH. exact H. Qed.
Lemma app_old {A} (l : list A) x i : (i < List.length l)%nat -> nth_error (l ++ [x]) i = nth_error l i.
Proof. intros H. apply nth_error_app1. exact H. Qed.

Lemma op_agree o w a : ~ changes o a -> exists_in w a -> agree w (h_apply o w) a.
Proof.
  intros Hc He.
  assert (P : forall r t w', a <> AType r -> agree w w' a -> agree w (put_type r t w') a).
  { intros r t w' N H. destruct a as [r'|m|f]; cbn in *; try exact H. rewrite set_nth_other; [exact H|]. congruence. }
  assert (N : forall k, agree w (h_new k w) a) by (intros k; destruct a as [r'|m|f], k; cbn in *; rewrite ?app_old by exact He; reflexivity).
  destruct o as [| |k|r op|r i|r m|r f|m e|f e]; cbn [h_apply changes] in *.
  1: destruct a; cbn in *; rewrite ?app_old by exact He; reflexivity.
  1: destruct a; cbn in *; rewrite ?app_old by exact He; reflexivity.
  1: apply N.
  - destruct (nth_error (w_types w) r) as [t|]; [|destruct a; reflexivity]. apply P; [exact Hc|destruct a; reflexivity].
  - destruct (nth_error (w_types w) r) as [[b|b x f c [u mn mx it|p mn mx ad di dv|s]]|]; try (destruct a; reflexivity). apply P; [exact Hc|destruct a; reflexivity].
  - destruct (nth_error (w_types w) r) as [[b|b x f c [u mn mx it|p mn mx ad di dv|s]]|]; try (destruct a; reflexivity).
    destruct m as [m|]; apply P; try exact Hc; destruct a; cbn in *; rewrite ?app_old by exact He; reflexivity.
  - destruct (nth_error (w_types w) r) as [[b|b x f0 c s]|]; try (destruct a; reflexivity).
    destruct f as [f|]; apply P; try exact Hc; destruct a; cbn in *; rewrite ?app_old by exact He; reflexivity.
  - destruct (nth_error (w_maps w) m) as [mm|]; [|destruct a; reflexivity]. destruct a as [r'|m'|f]; cbn in *; try reflexivity. apply set_nth_other. congruence.
  - destruct (nth_error (w_facets w) f) as [fm|]; [|destruct a; reflexivity]. destruct a as [r'|m'|f']; cbn in *; try reflexivity. apply set_nth_other. congruence.
Qed.

Lemma nothing_else {F : FloatIO} o w r : complete w (AType r) -> (forall a, changes o a -> ~ below w (AType r) a) ->
  forall n, tree n (h_apply o w) r = tree n w r /\ h_to_yaml n (h_apply o w) r = h_to_yaml n w r.
Proof.
  intros Hc H n. assert (A : forall a, below w (AType r) a -> agree w (h_apply o w) a).
  { intros a Ha. apply op_agree; [|apply Hc; exact Ha]. intros C. exact (H a C Ha). }
  split; [apply tree_agree; exact A|apply written_agree; exact A].
Qed.

(** ** What a setter changes *)

Definition shape_apply (op : type_op) (sh : shape nat) : shape nat :=
  match sh with
  | ShBase b => sh
  | ShExt b x f c s => ShExt (base_apply op b) (ext_apply op x) f (common_apply op c) (own_apply op s)
  end.

Lemma load_spec_apply w op s : load_spec w (hspec_apply op s) = option_map (own_apply op) (load_spec w s).
Proof.
  destruct s as [u mn mx it|p mn mx ad di dv|s].
  - destruct op; reflexivity.
  - destruct op; cbn [hspec_apply load_spec]; destruct (nth_error (w_maps w) p); reflexivity.
  - cbn [hspec_apply load_spec option_map]. f_equal. destruct s, op; reflexivity.
Qed.

Lemma load_set w r op sh : load w r = Some sh -> load (h_apply (HSet r op) w) r = Some (shape_apply op sh).
Proof.
  intros H. apply load_inv in H as [[b [Hr ->]]|[b [x [f [c [s [fm [fs [sp [H1 [H2 [H3 [H4 ->]]]]]]]]]]]]]; cbn [h_apply].
  - rewrite Hr. unfold load. cbn [put_type w_types]. rewrite (set_nth_same _ _ _ _ Hr). reflexivity.
  - rewrite H1. unfold load. cbn [put_type w_types w_facets w_maps]. rewrite (set_nth_same _ _ _ _ H1). cbn [htype_apply obind]. rewrite H2. cbn [obind].
    rewrite H3. cbn [obind]. assert (E : forall w', w_maps w' = w_maps w -> load_spec w' (hspec_apply op s) = Some (own_apply op sp)).
    { intros w' E. transitivity (load_spec w (hspec_apply op s)); [destruct (hspec_apply op s); cbn; rewrite ?E; reflexivity|]. rewrite load_spec_apply, H4. reflexivity. }
    rewrite E by reflexivity. reflexivity.
Qed.

Lemma load_set_other w r op r' : r <> r' -> load (h_apply (HSet r op) w) r' = load w r'.
Proof.
  intros H. cbn [h_apply]. destruct (nth_error (w_types w) r) as [t|]; [|reflexivity]. unfold load. cbn [put_type w_types w_facets w_maps].
  rewrite set_nth_other by exact H. reflexivity.
Qed.

Lemma in_spec_apply {A B} (f : A -> option B) op s s' : in_spec f s = Some s' -> in_spec f (own_apply op s) = Some (own_apply op s').
Proof.
  destruct s as [|u mn mx [a|]|fm|ft mn mx|fm mn mx mu|fm mn mx mu|ps mn mx ad di dv|p mn mx]; cbn [in_spec]; intros H.
  all: try (injection H as <-; destruct op; reflexivity).
  - destruct (f a) as [b|] eqn:E; [|discriminate]. injection H as <-. destruct op; cbn [own_apply in_spec]; rewrite ?E; reflexivity.
  - destruct (map_some f ps) as [qs|] eqn:E; [|discriminate]. injection H as <-. destruct op; cbn [own_apply in_spec]; rewrite ?E; reflexivity.
Qed.

Lemma type_apply_own op b x f c s : takes_no_type op ->
  type_apply op (TExt b x f c s) = TExt (base_apply op b) (ext_apply op x) f (common_apply op c) (own_apply op s).
Proof. intros H. cbn [type_apply]. destruct op; try destruct H; try reflexivity; destruct s; reflexivity. Qed.

(** From the top: what the tree of a definition is made of. *)
Lemma tree_inv n w r d : tree (S n) w r = Some d ->
  (exists b, load w r = Some (ShBase b) /\ d = TBase b) \/
  (exists b x f c s f' s', load w r = Some (ShExt b x f c s) /\ map_some (map_some (tree n w)) f = Some f' /\ in_spec (tree n w) s = Some s' /\ d = TExt b x f' c s').
Proof.
  cbn [tree]. destruct (load w r) as [[b|b x f c s]|]; [| |discriminate].
  - intros H. injection H as <-. left. eauto.
  - destruct (map_some (map_some (tree n w)) f) as [f'|] eqn:Ef; [|discriminate]. cbn [obind].
    destruct (in_spec (tree n w) s) as [s'|] eqn:Es; [|discriminate]. intros H. injection H as <-. right. exists b, x, f, c, s, f', s'. auto.
Qed.

Lemma tree_parts n w r d sh r' : tree (S n) w r = Some d -> load w r = Some sh -> In r' (parts sh) -> exists d', tree n w r' = Some d'.
Proof.
  intros H L Hp. apply tree_inv in H as [[b [E _]]|[b [x [f [c [s [f' [s' [E [Ef [Es _]]]]]]]]]]]; rewrite E in L; injection L as <-; [destruct Hp|].
  cbn [parts] in Hp. apply in_app_or in Hp as [Hp|Hp].
  - apply in_flat_map in Hp as [e [He Hp]]. apply in_map_iff in Hp as [e' [<- He']]. destruct (map_some_each _ _ _ _ Ef He) as [ds [Ed _]].
    destruct (map_some_each _ _ _ _ Ed He') as [d' [Hd _]]. eauto.
  - destruct s as [|u mn mx [i|]| | | | |ps mn mx ad di dv|]; try destruct Hp as [].
    + subst. cbn [in_spec] in Es. destruct (tree n w r') as [d'|]; [eauto|discriminate].
    + destruct H.
    + cbn [in_spec] in Es. destruct (map_some (tree n w) ps) as [qs|] eqn:Eq; [|discriminate]. cbn in Hp. apply in_map_iff in Hp as [e [<- He]].
      destruct (map_some_each _ _ _ _ Eq He) as [d' [Hd _]]. eauto.
Qed.

Lemma tree_no_loop n w r d : tree n w r = Some d -> ~ strictly_below w (AType r) (AType r).
Proof. intros H. apply acc_no_loop. exact (proj1 (tree_fine _ _ _ _ H)). Qed.

Lemma setter_here n w r d op : takes_no_type op -> tree n w r = Some d -> tree n (h_apply (HSet r op) w) r = Some (type_apply op d).
Proof.
  intros Ht H. destruct n as [|n]; [discriminate|].
  assert (L : exists sh, load w r = Some sh) by (cbn [tree] in H; destruct (load w r); [eauto|discriminate]). destruct L as [sh L].
  assert (G : forall r', In r' (parts sh) -> tree n (h_apply (HSet r op) w) r' = tree n w r').
  { intros r' Hp. apply tree_agree. intros a Ha. apply op_agree.
    - intros C. cbn [changes] in C. subst a. apply (tree_no_loop _ _ _ _ H). eapply strictly_below_trans; [eapply parts_below; eassumption|exact Ha].
    - apply (proj2 (tree_fine _ _ _ _ H)). eapply below_part; eassumption. }
  pose proof (load_set w r op sh L) as L'. apply tree_inv in H as [[b [E ->]]|[b [x [f [c [s [f' [s' [E [Ef [Es ->]]]]]]]]]]]; rewrite E in L; injection L as <-.
  - cbn [tree]. rewrite L'. reflexivity.
  - rewrite type_apply_own by exact Ht. cbn [tree]. rewrite L'. cbn [shape_apply].
    rewrite (map_some_ext (map_some (tree n (h_apply (HSet r op) w))) (map_some (tree n w)) f).
    2:{ intros e He. apply map_some_ext. intros e' He'. apply G. cbn [parts]. apply in_or_app. left. apply in_flat_map. exists e. split; [exact He|apply in_map; exact He']. }
    rewrite Ef. cbn [obind]. assert (K : in_spec (tree n (h_apply (HSet r op) w)) s = in_spec (tree n w) s).
    { assert (Q : forall r', In r' (spec_parts s) -> tree n (h_apply (HSet r op) w) r' = tree n w r') by (intros r' Hr; apply G; cbn [parts]; apply in_or_app; right; exact Hr).
      destruct s as [|u mn mx [i|]| | | | |ps mn mx ad di dv|]; cbn [in_spec]; try reflexivity.
      - rewrite (Q i (or_introl eq_refl)). reflexivity.
      - rewrite (map_some_ext (tree n (h_apply (HSet r op) w)) (tree n w) ps); [reflexivity|]. intros e He. apply Q. cbn. apply in_map. exact He. }
    rewrite (in_spec_apply _ op s s'); [reflexivity|]. rewrite K. exact Es.
Qed.

(** ** Paths *)

Lemma hop_tree n w r d p r1 : tree (S n) w r = Some d -> ref_hop w p r = Some r1 ->
  exists d1, type_hop p d = Some d1 /\ tree n w r1 = Some d1 /\ strictly_below w (AType r) (AType r1).
Proof.
  intros H Hp. apply tree_inv in H as [[b [E ->]]|[b [x [f [c [s [f' [s' [E [Ef [Es ->]]]]]]]]]]].
  - apply load_inv in E as [[b' [Hr _]]|[b1 [x1 [f1 [c1 [s1 [fm [fs [sp [H1 [_ [_ [_ X]]]]]]]]]]]]]; [|discriminate].
    unfold ref_hop in Hp. rewrite Hr in Hp. discriminate.
  - apply load_inv in E as [[b' [_ X]]|[b1 [x1 [f1 [c1 [s1 [fm [fs [sp [H1 [H2 [H3 [H4 X]]]]]]]]]]]]]; [discriminate|]. injection X as -> -> -> -> ->.
    unfold ref_hop in Hp. rewrite H1 in Hp. destruct s1 as [u mn mx it|q mn mx ad di dv|s1], p as [|name]; try discriminate.
    + subst it. cbn [load_spec] in H4. injection H4 as <-. cbn [in_spec] in Es. destruct (tree n w r1) as [d1|] eqn:T; [|discriminate]. injection Es as <-.
      exists d1. split; [reflexivity|]. split; [reflexivity|]. apply t_step. eapply holds_items. exact H1.
    + destruct (nth_error (w_maps w) q) as [mm|] eqn:Eq; [|discriminate]. cbn [obind] in Hp. cbn [load_spec] in H4. rewrite Eq in H4. injection H4 as <-.
      cbn [in_spec] in Es. destruct (map_some (tree n w) mm) as [qs|] eqn:Em; [|discriminate]. injection Es as <-.
      pose proof (map_some_get _ _ _ name Em) as G. rewrite Hp in G. cbn [obind] in G.
      unfold sget in Hp. destruct (find (fun e => String.eqb (fst e) name) (ents mm)) as [e|] eqn:Fe; [|discriminate]. injection Hp as <-. apply find_some in Fe as [Fe _].
      destruct (map_some_each _ _ _ _ Em Fe) as [d1 [Hd _]]. rewrite Hd in G. exists d1. split; [exact G|]. split; [exact Hd|].
      eapply t_trans; [apply t_step; eapply holds_properties; exact H1|]. apply t_step. destruct e as [k v]. eapply holds_type; eassumption.
Qed.

Lemma walk_tree ps : forall n w r d r', tree n w r = Some d -> ref_walk w ps r = Some r' ->
  exists d', walk ps d = Some d' /\ tree n w r' = Some d' /\ below w (AType r) (AType r').
Proof.
  induction ps as [|p ps IH]; intros n w r d r' H Hw; cbn [ref_walk] in Hw.
  - injection Hw as <-. exists d. split; [reflexivity|]. split; [exact H|apply rt_refl].
  - destruct (ref_hop w p r) as [r1|] eqn:Hp; [|discriminate]. cbn [obind] in Hw. destruct n as [|n]; [discriminate|].
    destruct (hop_tree n w r d p r1 H Hp) as [d1 [D1 [T1 B1]]]. destruct (IH n w r1 d1 r' T1 Hw) as [d' [W [T B]]].
    exists d'. split; [cbn [walk]; rewrite D1; exact W|]. split; [apply (tree_deeper n); [lia|exact T]|]. eapply rt_trans; [apply strictly_then; exact B1|exact B].
Qed.

(** ** New objects *)

Lemma new_tree k w : tree 1 (h_apply (HNewType k) w) (List.length (w_types w)) = Some (new_type k).
Proof.
  assert (N : forall A (l : list A) x, nth_error (l ++ [x]) (List.length l) = Some x) by (intros A l x; rewrite nth_error_app2, Nat.sub_diag by lia; reflexivity).
  destruct k; cbn [h_apply h_new]; unfold tree, load; cbn [new_at_end_type new_at_end_map new_at_end_facets w_types w_maps w_facets]; rewrite N; cbn [obind]; rewrite ?N; cbn [obind];
    try reflexivity.
  cbn [load_spec w_maps]. unfold map_some at 1. cbn [ents anew all_some option_map obind load_spec w_maps new_at_end_type new_at_end_map new_at_end_facets]. rewrite ?N. reflexivity.
Qed.

Lemma new_shares_nothing k w a : below (h_apply (HNewType k) w) (AType (List.length (w_types w))) a -> ~ exists_in w a.
Proof.
  assert (N : forall A (l : list A) x, nth_error (l ++ [x]) (List.length l) = Some x) by (intros A l x; rewrite nth_error_app2, Nat.sub_diag by lia; reflexivity).
  assert (G : forall a, below (h_apply (HNewType k) w) (AType (List.length (w_types w))) a ->
    a = AType (List.length (w_types w)) \/ a = AFacets (List.length (w_facets w)) \/ k = TyObject /\ a = AMap (List.length (w_maps w))).
  { intros b H. apply clos_rt_rtn1_iff in H. induction H as [|y z Hy _ IH]; [auto|].
    destruct IH as [->|[->|[-> ->]]].
    - inversion Hy as [r b x f c s E|r b x f c u mn mx i E|r b x f c p mn mx ad di dv E| |]; subst; destruct k; cbn in E; rewrite N in E; try discriminate; injection E; intros; subst; auto.
    - inversion Hy as [| | | |f fm q m E Hi]; subst. destruct k; cbn in E; rewrite ?N in E; try (injection E as <-; destruct Hi).
      all: pose proof (nth_exists _ _ _ E); lia.
    - inversion Hy as [| | |m mm q r E Hi|]; subst. cbn in E. rewrite N in E. injection E as <-. destruct Hi. }
  intros H E. apply G in H as [->|[->|[-> ->]]]; cbn in E; lia.
Qed.
