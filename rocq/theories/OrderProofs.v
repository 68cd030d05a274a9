(** C58, C59: repeated keys and the order of keys. *)
From Coq Require Import SpecFloat Permutation.
From Verif Require Import Base Num OMap OMapSpec Keys Yaml Values Assign Formats Meta Out Xml Example DataType Marshal
  AssignProofs TypeFacts Fields FieldProofs FacetSpec FacetProofs DocProofs TypeWrite.

(** ** Targets *)

Lemma target_cases d key f : shaped d -> target d key = Some f ->
  (f = FType /\ is_type_key key = true) \/ f = FExtra \/ f = FAnns \/
  (In f (facets_of (d_kind d)) /\ facet_key f = Some (value key)).
Proof.
  intros Hs Ht. destruct (in_dec string_dec (value key) (known_keys (d_kind d))) as [H|H].
  - apply known_key_in in H as [H|[H|[g [H1 H2]]]].
    + left. assert (Hk : is_type_key key = true) by (apply is_type_key_iff; auto). split; [|exact Hk].
      pose proof (aims_type d (key, key)) as A. unfold aims in A; cbn [fst] in A. rewrite Ht, Hk in A.
      apply field_eqb_eq in A. congruence.
    + left. assert (Hk : is_type_key key = true) by (apply is_type_key_iff; auto). split; [|exact Hk].
      pose proof (aims_type d (key, key)) as A. unfold aims in A; cbn [fst] in A. rewrite Ht, Hk in A.
      apply field_eqb_eq in A. congruence.
    + rewrite (target_facet d key g Hs H1 H2) in Ht. injection Ht as <-. auto.
  - rewrite (target_unknown d key Hs H) in Ht. destruct d as [b|b x fs c s]; [injection Ht as <-; auto|].
    destruct (is_annotation_key key); [injection Ht as <-; auto|].
    match type of Ht with (if ?c then _ else _) = _ => destruct c end; [discriminate|].
    injection Ht as <-. auto.
Qed.

(** ** Lists *)

Lemma Permutation_filter {A} (p : A -> bool) l l' : Permutation l l' -> Permutation (filter p l) (filter p l').
Proof.
  intros H. induction H as [|a l l' H IH|a b l|l1 l2 l3 H1 IH1 H2 IH2]; simpl.
  - constructor.
  - destruct (p a); [constructor|]; assumption.
  - destruct (p a), (p b); try apply Permutation_refl. apply perm_swap.
  - eapply Permutation_trans; eassumption.
Qed.

Lemma Permutation_existsb {A} (p : A -> bool) l l' : Permutation l l' -> existsb p l = existsb p l'.
Proof.
  intros H. induction H as [|a l l' H IH|a b l|l1 l2 l3 H1 IH1 H2 IH2]; simpl; try congruence.
  destruct (p a), (p b); reflexivity.
Qed.

Lemma Permutation_single {A} (l l' : list A) : (List.length l <= 1)%nat -> Permutation l l' -> l = l'.
Proof.
  intros Hl H. destruct l as [|a [|b l]]; simpl in Hl; [|symmetry; apply Permutation_length_1_inv; exact H|lia].
  symmetry. apply Permutation_nil. exact H.
Qed.

Definition text (e : node * node) : string := value (fst e).

Lemma same_text_single l s : NoDup (map text l) -> (forall e, In e l -> text e = s) -> (List.length l <= 1)%nat.
Proof.
  intros Hn Hs. destruct l as [|a [|b l]]; simpl; try lia. exfalso.
  simpl in Hn. inversion Hn as [|x y Hx Hy]; subst. apply Hx. left. rewrite (Hs a), (Hs b); simpl; auto.
Qed.

Lemma NoDup_map_filter {A B} (g : A -> B) p l : NoDup (map g l) -> NoDup (map g (filter p l)).
Proof.
  induction l as [|a l IH]; simpl; intros H; [constructor|]. inversion H as [|x y Hx Hy]; subst.
  destruct (p a); [|apply IH; exact Hy]. simpl. constructor; [|apply IH; exact Hy].
  intros Hin. apply Hx. apply in_map_iff in Hin as [e [E Hin]]. apply filter_In in Hin as [Hin _].
  apply in_map_iff. eauto.
Qed.

(** [type] and [schema] count as one key. *)
Definition no_repeats (l : list (node * node)) : Prop :=
  NoDup (map text l) /\ ~ (mentions "type" l /\ mentions "schema" l).

Lemma type_keys_single l : no_repeats l -> (List.length (filter (fun e => is_type_key (fst e)) l) <= 1)%nat.
Proof.
  intros [Hn Hb]. destruct (in_dec string_dec "type" (map text l)) as [H|H].
  - apply (same_text_single _ "type"); [apply NoDup_map_filter; exact Hn|].
    intros e He. apply filter_In in He as [He Ht]. apply is_type_key_iff in Ht as [Ht|Ht]; [exact Ht|].
    exfalso. apply Hb. split; [|exists e; auto]. apply in_map_iff in H as [e' [E H]]. exists e'. auto.
  - apply (same_text_single _ "schema"); [apply NoDup_map_filter; exact Hn|].
    intros e He. apply filter_In in He as [He Ht]. apply is_type_key_iff in Ht as [Ht|Ht]; [|exact Ht].
    exfalso. apply H. rewrite <- Ht. apply (in_map text). exact He.
Qed.

(** ** C59 *)

Lemma sift_by_filter l : sift_type l =
  match filter (fun e => is_type_key (fst e)) l with
  | (_, v) :: _ =>
    if is_string v then Ok (set_schema (value v) (new_type (kind_of (value v))))
    else if is_seq v then Err
    else match node_tag v with TInclude => Ok (new_type TyInclude) | _ => Err end
  | [] => Ok (new_type (if has_key KeyProperties l then TyObject
                        else if has_key KeyItems l then TyArray else TyString))
  end.
Proof.
  destruct (has_type_key l) eqn:E.
  - apply split_type_key in E as [pre [k [v [post [-> [H1 H2]]]]]]. rewrite sift_first by assumption.
    rewrite filter_app, (filter_none _ pre); [cbn [filter app fst]; rewrite H2; reflexivity|].
    intros e He. destruct (is_type_key (fst e)) eqn:Et; [|reflexivity].
    assert (has_type_key pre = true) by (apply existsb_exists; eauto). congruence.
  - rewrite sift_shape by exact E. rewrite filter_none; [reflexivity|].
    intros e He. destruct (is_type_key (fst e)) eqn:Et; [|reflexivity].
    assert (has_type_key l = true) by (apply existsb_exists; eauto). congruence.
Qed.

Lemma sift_permutation l l' : Permutation l l' -> no_repeats l -> sift_type l = sift_type l'.
Proof.
  intros H Hn. rewrite !sift_by_filter.
  rewrite (Permutation_single _ _ (type_keys_single l Hn) (Permutation_filter _ _ _ H)).
  unfold has_key. rewrite !(Permutation_existsb _ _ _ H). reflexivity.
Qed.

Section Anns.
  Context {F : FloatIO}.
  Variable rd : node -> res dtype.

  Definition ann_entry (e : node * node) (kv : string * untyped) : Prop :=
    fst kv = text e /\ read_annotation (snd e) = Ok (snd kv).

  Lemma fold_anns kd l : forall m v, fold_res (stepper rd kd FAnns) (VAnns m) l = Ok v <->
    exists kvs, Forall2 ann_entry l kvs /\ v = VAnns (mputs kvs m).
  Proof.
    induction l as [|e l IH]; intros m v.
    - cbn. split; [intros H; injection H as <-; exists []; split; [constructor|reflexivity]|].
      intros [kvs [H ->]]. inversion H; reflexivity.
    - cbn. rewrite bind_ok. split.
      + intros [w [H1 H]]. unfold stepper in H1. cbn in H1. apply bind_ok in H1 as [a [Ha H1]]. injection H1 as <-.
        apply IH in H as [kvs [Hl ->]]. exists ((text e, a) :: kvs). split; [|reflexivity].
        constructor; [split; [reflexivity|exact Ha]|exact Hl].
      + intros [kvs [H ->]]. inversion H as [|x kv y kvs' [Hk Hv] Hl E1 E2]; subst.
        unfold stepper at 1. cbn [step]. rewrite Hv. cbn [bind]. eexists. split; [reflexivity|].
        apply IH. exists kvs'. split; [exact Hl|]. cbn. rewrite Hk. reflexivity.
  Qed.
End Anns.

Lemma mputs_fresh {V} (kvs : list (string * V)) : forall pre b, NoDup (map fst (pre ++ kvs)) ->
  mputs kvs (mkMap pre b) = mkMap (pre ++ kvs) b.
Proof.
  induction kvs as [|[k v] kvs IH]; intros pre b Hn; cbn [mputs fold_left].
  - rewrite app_nil_r. reflexivity.
  - cbn [fst snd]. rewrite mput_fresh.
    + unfold mputs in IH. rewrite IH; [rewrite <- app_assoc; reflexivity|]. rewrite <- app_assoc. exact Hn.
    + rewrite map_app in Hn. cbn in Hn. apply NoDup_remove_2 in Hn. intros H. apply Hn. apply in_or_app. auto.
Qed.

Lemma ann_keys l kvs : Forall2 ann_entry l kvs -> map fst kvs = map text l.
Proof. intros H. induction H as [|e kv l kvs [Hk _] _ IH]; simpl; congruence. Qed.

Definition same_but_order (d d' : dtype) : Prop :=
  d_kind d' = d_kind d /\
  (forall f, f <> FExtra -> f <> FAnns -> getf f d' = getf f d) /\
  Permutation (ents (d_extra d)) (ents (d_extra d')) /\ oord (d_extra d') = oord (d_extra d) /\
  match getf FAnns d, getf FAnns d' with
  | Some (VAnns m), Some (VAnns m') => Permutation (ents m) (ents m') /\ oord m' = oord m
  | None, None => True
  | _, _ => False
  end.

Lemma start_anns s k : getf FAnns (set_schema s (new_type k)) =
  match k with TyNil | TyInclude => None | _ => Some (VAnns (mkMap [] true)) end.
Proof. destruct k; reflexivity. Qed.

Lemma getf_shape f d d' : same_shape d d' = true -> getf f d = None -> getf f d' = None.
Proof.
  destruct d as [b|b x fs c s]; destruct d' as [b'|b' x' fs' c' s']; simpl; try discriminate; intros H.
  - destruct f; discriminate || reflexivity.
  - destruct f; try discriminate; destruct s; destruct s'; simpl in H; try discriminate; reflexivity || discriminate.
Qed.

Lemma order_of_keys {F : FloatIO} t l l' d : t <> TStr -> Permutation l l' -> no_repeats l ->
  hat (Map t l) = Ok d -> exists d', hat (Map t l') = Ok d' /\ same_but_order d d'.
Proof.
  intros Ht Hp Hn H. destruct (hat_start t l d Ht H) as [sc [Hsift [Hf [Hs Hd]]]].
  set (d0 := set_schema sc (new_type (d_kind d))) in *.
  assert (Hsame : forall f, f <> FExtra -> f <> FAnns -> filter (aims d0 f) l' = filter (aims d0 f) l).
  { intros f Hf1 Hf2. symmetry. apply Permutation_single; [|apply Permutation_filter; exact Hp].
    destruct (filter (aims d0 f) l) as [|e0 r0] eqn:E0; [simpl; lia|]. rewrite <- E0.
    assert (Hin : In e0 (filter (aims d0 f) l)) by (rewrite E0; left; reflexivity).
    apply filter_In in Hin as [_ Ha]. unfold aims in Ha.
    destruct (target d0 (fst e0)) as [g|] eqn:Eg; [|discriminate]. apply field_eqb_eq in Ha. subst g.
    destruct (target_cases d0 (fst e0) f Hs Eg) as [[-> _]|[->|[->|[Hi Hk]]]]; try congruence.
    - erewrite filter_ext; [apply type_keys_single; exact Hn|]. intros e. apply aims_type.
    - apply (same_text_single _ (value (fst e0))); [apply NoDup_map_filter; apply Hn|].
      intros e He. apply filter_In in He as [_ He]. rewrite (aims_facet d0 f _ e Hs Hi Hk) in He.
      apply String.eqb_eq. exact He. }
  assert (Hex : exists d', fold_res (type_assign hat) d0 l' = Ok d').
  { apply fields_fold.
    - intros e He. eapply fold_targets; [exact Hf|]. eapply Permutation_in; [apply Permutation_sym; exact Hp|exact He].
    - intros f old Hold. destruct (fold_fields _ _ _ _ Hf f old Hold) as [v [Hv Hfold]].
      destruct (field_dec f FExtra) as [->|Hf1].
      { rewrite getf_extra in Hold. injection Hold as <-. eexists. apply fold_extra. }
      destruct (field_dec f FAnns) as [->|Hf2].
      { unfold d0 in Hold. rewrite start_anns in Hold.
        assert (Hm : exists m, old = VAnns m) by (destruct (d_kind d); try discriminate; injection Hold as <-; eauto).
        destruct Hm as [m ->]. apply fold_anns in Hfold as [kvs [Hkvs _]].
        destruct (Permutation_Forall2 (Permutation_filter (aims d0 FAnns) _ _ Hp) Hkvs) as [kvs' [_ Hkvs']].
        eexists. apply fold_anns. exists kvs'. split; [exact Hkvs'|reflexivity]. }
      rewrite Hsame by assumption. eauto. }
  destruct Hex as [d' Hd']. exists d'. split.
  { apply hat_map; [exact Ht|]. exists d0. split; [|exact Hd']. rewrite <- (sift_permutation l l' Hp Hn). exact Hsift. }
  pose proof (fold_kind _ _ _ _ Hf) as [K1 S1]. pose proof (fold_kind _ _ _ _ Hd') as [K2 S2].
  unfold same_but_order. split; [congruence|]. split; [|split; [|split]].
  - intros f Hf1 Hf2. destruct (getf f d0) as [old|] eqn:Eo.
    + destruct (fold_fields _ _ _ _ Hf f old Eo) as [v [Hv Hfold]].
      destruct (fold_fields _ _ _ _ Hd' f old Eo) as [v' [Hv' Hfold']].
      rewrite Hsame in Hfold' by assumption. congruence.
    + rewrite (getf_shape f d0 d), (getf_shape f d0 d'); try assumption; try reflexivity;
        rewrite same_shape_sym; assumption.
  - destruct (fold_fields _ _ _ _ Hf FExtra _ (getf_extra _)) as [v [Hv Hfold]].
    destruct (fold_fields _ _ _ _ Hd' FExtra _ (getf_extra _)) as [v' [Hv' Hfold']].
    rewrite fold_extra in Hfold, Hfold'. injection Hfold as <-. injection Hfold' as <-.
    rewrite getf_extra in Hv, Hv'. injection Hv as ->. injection Hv' as ->.
    assert (E0 : d_extra d0 = mkMap [] true) by (unfold d0; destruct (d_kind d); reflexivity). rewrite E0.
    assert (Hpf := Permutation_filter (aims d0 FExtra) _ _ Hp).
    assert (Hnf : NoDup (map text (filter (aims d0 FExtra) l))) by (apply NoDup_map_filter; apply Hn).
    rewrite !put_extra_fresh; [cbn [ents]; apply Permutation_map; exact Hpf| |exact Hnf].
    eapply Permutation_NoDup; [|exact Hnf]. apply Permutation_map. exact Hpf.
  - destruct (fold_fields _ _ _ _ Hf FExtra _ (getf_extra _)) as [v [Hv Hfold]].
    destruct (fold_fields _ _ _ _ Hd' FExtra _ (getf_extra _)) as [v' [Hv' Hfold']].
    rewrite fold_extra in Hfold, Hfold'. injection Hfold as <-. injection Hfold' as <-.
    rewrite getf_extra in Hv, Hv'. injection Hv as ->. injection Hv' as ->.
    assert (E : forall l m, oord (fold_left put_extra l m) = oord m).
    { intros l0. induction l0 as [|e l0 IH]; intros m; simpl; [reflexivity|]. rewrite IH. reflexivity. }
    rewrite !E. reflexivity.
  - destruct (getf FAnns d0) as [old|] eqn:Eo.
    + destruct (fold_fields _ _ _ _ Hf FAnns old Eo) as [v [Hv Hfold]].
      destruct (fold_fields _ _ _ _ Hd' FAnns old Eo) as [v' [Hv' Hfold']].
      unfold d0 in Eo. rewrite start_anns in Eo.
      assert (Hm : old = VAnns (mkMap [] true)) by (destruct (d_kind d); try discriminate; injection Eo as <-; reflexivity).
      subst old. apply fold_anns in Hfold as [kvs [Hkvs ->]]. apply fold_anns in Hfold' as [kvs' [Hkvs' ->]].
      rewrite Hv, Hv'.
      assert (Hpf := Permutation_filter (aims d0 FAnns) _ _ Hp).
      destruct (Permutation_Forall2 Hpf Hkvs) as [kvs2 [Hp2 Hkvs2]].
      assert (kvs2 = kvs').
      { clear - Hkvs2 Hkvs'. revert kvs' Hkvs'. induction Hkvs2 as [|e kv l0 l1 [A B] _ IH]; intros kvs' H'; inversion H' as [|x y z w [C D] E]; subst; [reflexivity|].
        f_equal; [|apply IH; assumption]. destruct kv, y; cbn in *. congruence. }
      subst kvs2.
      assert (Hnf : NoDup (map fst kvs)) by (rewrite (ann_keys _ _ Hkvs); apply NoDup_map_filter; apply Hn).
      rewrite !mputs_fresh; cbn [app ents oord]; [split; [exact Hp2|reflexivity]| |exact Hnf].
      eapply Permutation_NoDup; [|exact Hnf]. apply Permutation_map. exact Hp2.
    + rewrite (getf_shape FAnns d0 d), (getf_shape FAnns d0 d'); try assumption; try exact I;
        rewrite same_shape_sym; assumption.
Qed.

(** ** C58 *)

(** Putting twice under one key. *)
Lemma sdelete_comm {K V} keq (a b : K) (l : list (K * V)) : sdelete keq a (sdelete keq b l) = sdelete keq b (sdelete keq a l).
Proof.
  unfold sdelete. induction l as [|e l IH]; simpl; [reflexivity|].
  destruct (other keq b e) eqn:Eb; destruct (other keq a e) eqn:Ea; simpl; rewrite ?Ea, ?Eb; congruence.
Qed.

Lemma sdelete_sput {K V} keq (a b : K) (v : V) (x y : list (K * V)) :
  sdelete keq a x = sdelete keq a y -> sdelete keq a (sput keq b v x) = sdelete keq a (sput keq b v y).
Proof.
  intros H. unfold sput. unfold sdelete at 1 3. rewrite !filter_app. f_equal.
  change (sdelete keq a (sdelete keq b x) = sdelete keq a (sdelete keq b y)).
  rewrite sdelete_comm, H, sdelete_comm. reflexivity.
Qed.

Lemma sdelete_puts {K V A} keq (a : K) (kf : A -> K) (vf : A -> V) l : forall x y,
  sdelete keq a x = sdelete keq a y ->
  sdelete keq a (fold_left (fun m e => sput keq (kf e) (vf e) m) l x) =
  sdelete keq a (fold_left (fun m e => sput keq (kf e) (vf e) m) l y).
Proof. induction l as [|e l IH]; intros x y H; simpl; [exact H|]. apply IH. apply sdelete_sput. exact H. Qed.

Lemma sdelete_put_same {K V} keq (a : K) (v : V) x : keq a a = true -> sdelete keq a (sput keq a v x) = sdelete keq a x.
Proof.
  intros H. unfold sput. unfold sdelete at 1. rewrite filter_app. simpl. unfold other at 2. simpl. rewrite H. simpl.
  rewrite app_nil_r. unfold sdelete. induction x as [|e x IH]; simpl; [reflexivity|].
  destruct (other keq a e) eqn:E; simpl; rewrite ?E, ?IH; reflexivity.
Qed.

Lemma puts_skip {K V A} keq (kf : A -> K) (vf : A -> V) e1 e2 mid post x :
  keq (kf e2) (kf e2) = true -> kf e1 = kf e2 ->
  fold_left (fun m e => sput keq (kf e) (vf e) m) (e1 :: mid ++ e2 :: post) x =
  fold_left (fun m e => sput keq (kf e) (vf e) m) (mid ++ e2 :: post) x.
Proof.
  intros Hr E. simpl. rewrite !fold_left_app. simpl. f_equal. unfold sput at 1 4. f_equal.
  apply sdelete_puts. rewrite E. apply sdelete_put_same. exact Hr.
Qed.

(** Facets that replace the old value. *)
Definition replacing (f : field) : bool :=
  match f with
  | FExtra | FAnns | FEnum | FProps | FFacets | FExamples | FDefault => false
  | _ => true
  end.

Section Repeated.
  Context {F : FloatIO}.
  Variable rd : node -> res dtype.

  Lemma step_replacing kd f key val old old' : replacing f = true -> same_sort old old' = true ->
    step rd kd f key val old = step rd kd f key val old' \/ f = FFileTypes.
  Proof.
    intros Hr Hs. destruct f; try discriminate; destruct old; destruct old'; try discriminate; auto.
  Qed.

  Lemma file_types_replacing val o o' :
    (do l' <- run_assign (as_string_list val o); Ok (VStrs l')) = (do l' <- run_assign (as_string_list val o'); Ok (VStrs l')).
  Proof. unfold as_string_list. destruct (seq_for_each string_list_step [] val) as [tmp [[]| |]]; reflexivity. Qed.

  Lemma step_replacing' kd f key val old old' : replacing f = true -> same_sort old old' = true ->
    step rd kd f key val old = step rd kd f key val old'.
  Proof.
    intros Hr Hs. destruct (step_replacing kd f key val old old' Hr Hs) as [H| ->]; [exact H|].
    destruct old; destruct old'; try discriminate; try reflexivity. apply file_types_replacing.
  Qed.

  Lemma same_sort_refl v : same_sort v v = true.
  Proof. destruct v; reflexivity. Qed.
  Lemma same_sort_trans a b c : same_sort a b = true -> same_sort b c = true -> same_sort a c = true.
  Proof. destruct a; destruct b; try discriminate; destruct c; intros; try discriminate; reflexivity. Qed.
  Lemma same_sort_sym a b : same_sort a b = same_sort b a.
  Proof. destruct a; destruct b; reflexivity. Qed.

  (** The sort is kept along a fold that starts from a value of the field. *)
  Lemma stepper_sort kd f d old0 : getf f d = Some old0 -> forall l old v, same_sort old old0 = true ->
    fold_res (stepper rd kd f) old l = Ok v -> same_sort v old0 = true.
  Proof.
    intros Hg l. induction l as [|e l IH]; intros old v Hs H; cbn in H; [injection H as <-; exact Hs|].
    apply bind_ok in H as [w [Hw H]]. eapply IH; [|exact H].
    assert (Hf : getf f (setf f old d) = Some old) by (apply getf_setf_same; exists old0; auto).
    eapply same_sort_trans; [|exact Hs]. eapply step_sort; [exact Hf|exact Hw].
  Qed.

  Lemma fold_replacing kd f d old0 : getf f d = Some old0 -> replacing f = true -> forall l old old' v,
    same_sort old old0 = true -> same_sort old' old0 = true ->
    fold_res (stepper rd kd f) old l = Ok v ->
    exists v', fold_res (stepper rd kd f) old' l = Ok v' /\ (l <> [] -> v' = v).
  Proof.
    intros Hg Hr l old old' v Hs Hs' H. destruct l as [|e l]; [exists old'; split; [reflexivity|congruence]|].
    cbn in H. exists v. split; [|auto]. cbn. unfold stepper at 1. unfold stepper at 1 in H.
    rewrite (step_replacing' kd f _ _ old' old) ; [exact H|exact Hr|].
    eapply same_sort_trans; [exact Hs'|]. rewrite same_sort_sym. exact Hs.
  Qed.

  Lemma replacing_skip kd f d old v A e1 B e2 C : getf f d = Some old -> replacing f = true ->
    fold_res (stepper rd kd f) old (A ++ e1 :: B ++ e2 :: C) = Ok v ->
    fold_res (stepper rd kd f) old (A ++ B ++ e2 :: C) = Ok v.
  Proof.
    intros Hg Hr H. rewrite fold_res_app in *. apply bind_ok in H as [a [Ha H]]. rewrite Ha. cbn [bind].
    assert (Sa : same_sort a old = true) by (eapply stepper_sort; [exact Hg|apply same_sort_refl|exact Ha]).
    cbn in H. apply bind_ok in H as [a1 [Ha1 H]].
    assert (Sa1 : same_sort a1 old = true).
    { eapply (stepper_sort kd f d old Hg [e1]); [exact Sa|]. cbn. rewrite Ha1. reflexivity. }
    change ((fix fold_res s l {struct l} := match l with [] => Ok s | a0 :: t => do s' <- stepper rd kd f s a0; fold_res s' t end) a1 (B ++ e2 :: C))
      with (fold_res (stepper rd kd f) a1 (B ++ e2 :: C)) in H.
    destruct (fold_replacing kd f d old Hg Hr (B ++ e2 :: C) a1 a v Sa1 Sa H) as [v' [Hv' E]].
    rewrite Hv'. f_equal. apply E. destruct B; discriminate.
  Qed.

  Lemma put_extra_skip A e1 B e2 C m : text e1 = text e2 ->
    fold_left put_extra (A ++ e1 :: B ++ e2 :: C) m = fold_left put_extra (A ++ B ++ e2 :: C) m.
  Proof.
    intros E. rewrite !(fold_left_app _ A). generalize (fold_left put_extra A m). clear m. intros m.
    assert (Hv : forall l m, fold_left put_extra l m =
      mkMap (fold_left (fun x e => sput gkey_eqb (KStr (text e)) (GNode (snd e)) x) l (ents m)) (oord m)).
    { intros l. induction l as [|e l IH]; intros [es b]; [reflexivity|]. cbn [fold_left]. rewrite IH. reflexivity. }
    rewrite !Hv. f_equal.
    apply (puts_skip gkey_eqb (fun e => KStr (text e)) (fun e : node * node => GNode (snd e))); [|congruence].
    cbn. apply String.eqb_refl.
  Qed.

  Lemma mputs_skip {V} A (e1 e2 : string * V) B C m : fst e1 = fst e2 ->
    mputs (A ++ e1 :: B ++ e2 :: C) m = mputs (A ++ B ++ e2 :: C) m.
  Proof.
    intros E. unfold mputs. rewrite !(fold_left_app _ A).
    match goal with |- fold_left _ _ ?x = _ => generalize x end. clear m. intros m.
    assert (Hv : forall (l : list (string * V)) m, fold_left (fun m kv => mput (fst kv) (snd kv) m) l m =
      mkMap (fold_left (fun x e => sput String.eqb (fst e) (snd e) x) l (ents m)) (oord m)).
    { intros l. induction l as [|e l IH]; intros [es b]; [reflexivity|]. cbn [fold_left]. rewrite IH. reflexivity. }
    rewrite !Hv. f_equal.
    apply (puts_skip String.eqb (fun e : string * V => fst e) (fun e : string * V => snd e)); [|exact E].
    cbn. apply String.eqb_refl.
  Qed.

  Lemma anns_skip kd A e1 B e2 C m v : text e1 = text e2 ->
    fold_res (stepper rd kd FAnns) (VAnns m) (A ++ e1 :: B ++ e2 :: C) = Ok v ->
    fold_res (stepper rd kd FAnns) (VAnns m) (A ++ B ++ e2 :: C) = Ok v.
  Proof.
    intros E H. apply fold_anns in H as [kvs [H ->]]. apply fold_anns.
    apply Forall2_app_inv_l in H as [ka [k1 [HA [H1 ->]]]]. inversion H1 as [|x kv1 y k2 P1 H2]; subst.
    apply Forall2_app_inv_l in H2 as [kb [kc [HB [HC ->]]]]. inversion HC as [|x kv2 y kc' P2 H3]; subst.
    exists (ka ++ kb ++ kv2 :: kc'). split; [apply Forall2_app; [exact HA|]; apply Forall2_app; [exact HB|]; constructor; assumption|].
    f_equal. apply mputs_skip. destruct P1 as [P1 _], P2 as [P2 _]. congruence.
  Qed.
End Repeated.

Lemma sift_skip A k1 v1 B : is_type_key k1 = false -> mentions (value k1) B ->
  sift_type (A ++ (k1, v1) :: B) = sift_type (A ++ B).
Proof.
  intros Hk Hm. rewrite !sift_by_filter, !filter_app. cbn [filter fst]. rewrite Hk.
  assert (E : forall s, has_key s (A ++ (k1, v1) :: B) = has_key s (A ++ B)).
  { intros s. unfold has_key. rewrite !existsb_app. cbn [existsb fst]. f_equal.
    destruct (String.eqb_spec (value k1) s) as [E|E]; [|reflexivity]. cbn. symmetry.
    destruct Hm as [e [He Ee]]. apply existsb_exists. exists e. split; [exact He|]. apply String.eqb_eq. congruence. }
  rewrite !E. reflexivity.
Qed.

(** The keys whose facets add up, and the type. *)
Definition adding_keys : list string := ["type"; "schema"; "enum"; "properties"; "facets"; "examples"].

Lemma repeated_key {F : FloatIO} t pre k1 v1 mid k2 v2 post d : t <> TStr ->
  value k1 = value k2 -> is_string k1 = is_string k2 -> ~ In (value k1) adding_keys ->
  hat (Map t (pre ++ (k1, v1) :: mid ++ (k2, v2) :: post)) = Ok d ->
  hat (Map t (pre ++ mid ++ (k2, v2) :: post)) = Ok d.
Proof.
  intros Ht Hv Htag Hn H. destruct (hat_start t _ d Ht H) as [sc [Hsift [Hf [Hs Hd]]]].
  set (d0 := set_schema sc (new_type (d_kind d))) in *.
  assert (Hk : is_type_key k1 = false).
  { destruct (is_type_key k1) eqn:E; [|reflexivity]. apply is_type_key_iff in E. exfalso. apply Hn.
    destruct E as [E|E]; rewrite E; simpl; auto. }
  assert (Htg : target d0 k1 = target d0 k2) by (unfold target; rewrite Hv, Htag; reflexivity).
  assert (T1 : target d0 k1 <> None).
  { eapply (fold_targets hat _ _ _ Hf (k1, v1)). apply in_or_app. right; left; reflexivity. }
  destruct (target d0 k1) as [f1|] eqn:E1; [|congruence]. clear T1.
  set (l := pre ++ (k1, v1) :: mid ++ (k2, v2) :: post) in *.
  set (l' := pre ++ mid ++ (k2, v2) :: post) in *.
  assert (Hfold : forall f old v, getf f d0 = Some old ->
            fold_res (stepper hat (d_kind d0) f) old (filter (aims d0 f) l) = Ok v ->
            fold_res (stepper hat (d_kind d0) f) old (filter (aims d0 f) l') = Ok v).
  { intros f old v Ho. unfold l, l'. rewrite !filter_app. cbn [filter]. rewrite filter_app. cbn [filter].
    assert (Ea1 : aims d0 f (k1, v1) = field_eqb f f1) by (unfold aims; cbn [fst]; rewrite E1; reflexivity).
    assert (Ea2 : aims d0 f (k2, v2) = field_eqb f f1) by (unfold aims; cbn [fst]; rewrite <- Htg; reflexivity).
    rewrite Ea1, Ea2. destruct (field_eqb f f1) eqn:Ef; [|exact (fun H => H)]. apply field_eqb_eq in Ef. subst f.
    destruct (target_cases d0 k1 f1 Hs E1) as [[-> Hty]|[->|[->|[Hi Hkey]]]].
    - congruence.
    - rewrite getf_extra in Ho. injection Ho as <-. rewrite !fold_extra. intros H0. rewrite <- H0. do 2 f_equal.
      symmetry. apply put_extra_skip. exact Hv.
    - unfold d0 in Ho. rewrite start_anns in Ho.
      assert (Hm : exists m, old = VAnns m) by (destruct (d_kind d); try discriminate; injection Ho as <-; eauto).
      destruct Hm as [m ->]. apply anns_skip. exact Hv.
    - apply (replacing_skip hat _ f1 d0 old); [exact Ho|].
      destruct f1; try reflexivity; try discriminate; exfalso; apply Hn; injection Hkey as <-; simpl; auto 8. }
  assert (Hex : exists d', fold_res (type_assign hat) d0 l' = Ok d').
  { apply fields_fold.
    - intros e He. eapply fold_targets; [exact Hf|]. unfold l, l' in *. apply in_app_or in He. apply in_or_app.
      destruct He as [He|He]; [left; exact He|right; right; exact He].
    - intros f old Ho. destruct (fold_fields _ _ _ _ Hf f old Ho) as [v [_ Hv0]]. exists v. apply Hfold; assumption. }
  destruct Hex as [d' Hd']. apply hat_map; [exact Ht|]. exists d0. split.
  - rewrite <- Hsift. symmetry. apply sift_skip; [exact Hk|]. exists (k2, v2). split; [|symmetry; exact Hv].
    apply in_or_app. right; left; reflexivity.
  - rewrite Hd'. f_equal. pose proof (fold_kind _ _ _ _ Hf) as [K1 S1]. pose proof (fold_kind _ _ _ _ Hd') as [K2 S2].
    apply field_ext; [congruence|]. intros f. destruct (getf f d0) as [old|] eqn:Eo.
    + destruct (fold_fields _ _ _ _ Hf f old Eo) as [v [Hv1 Hfold1]].
      destruct (fold_fields _ _ _ _ Hd' f old Eo) as [v' [Hv2 Hfold2]].
      apply (Hfold f old v Eo) in Hfold1. congruence.
    + rewrite (getf_shape f d0 d), (getf_shape f d0 d'); try assumption; try reflexivity;
        rewrite same_shape_sym; assumption.
Qed.
