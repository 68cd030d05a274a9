(** C22, C23, C24, C26, C44, C51: whole type definitions. *)
From Coq Require Import SpecFloat.
From Verif Require Import Base Num OMap OMapSpec Keys Yaml Values Assign Formats Meta Out Xml Example DataType Marshal
  AssignProofs TypeFacts Fields FieldProofs FacetSpec FacetProofs.

(** ** Classification of expanded definitions *)

Inductive classified : list (node * node) -> dkind -> Prop :=
| by_type pre k v post s kd : no_type_key pre -> (value k = "type" \/ value k = "schema") ->
    denotes_string v s -> named s kd -> classified (pre ++ (k, v) :: post) kd
| by_include pre k v post : no_type_key pre -> (value k = "type" \/ value k = "schema") ->
    node_tag v = TInclude -> classified (pre ++ (k, v) :: post) TyInclude
| by_properties l : no_type_key l -> mentions "properties" l -> classified l TyObject
| by_items l : no_type_key l -> ~ mentions "properties" l -> mentions "items" l -> classified l TyArray
| by_default l : no_type_key l -> ~ mentions "properties" l -> ~ mentions "items" l -> classified l TyString.

Lemma no_type_key_iff l : has_type_key l = false <-> no_type_key l.
Proof.
  unfold has_type_key, no_type_key. split.
  - intros H e He. split; intros E; (assert (H' : existsb (fun e => is_type_key (fst e)) l = true);
      [apply existsb_exists; exists e; split; [exact He|]; unfold is_type_key; rewrite E; reflexivity|congruence]).
  - intros H. destruct (existsb (fun e => is_type_key (fst e)) l) eqn:E; [|reflexivity].
    apply existsb_exists in E as [e [He E]]. unfold is_type_key in E. apply orb_true_iff in E.
    rewrite !String.eqb_eq in E. destruct (H e He). tauto.
Qed.

Lemma is_type_key_iff k : is_type_key k = true <-> (value k = "type" \/ value k = "schema").
Proof. unfold is_type_key. rewrite orb_true_iff, !String.eqb_eq. reflexivity. Qed.

Lemma has_key_iff s l : has_key s l = true <-> mentions s l.
Proof.
  unfold has_key, mentions. rewrite existsb_exists. split; intros [e [H1 H2]]; exists e; split; auto;
    apply String.eqb_eq; exact H2.
Qed.

Lemma has_key_false s l : has_key s l = false <-> ~ mentions s l.
Proof. rewrite <- has_key_iff. destruct (has_key s l); split; intros; congruence. Qed.

Lemma sift_classified l d : sift_type l = Ok d -> classified l (d_kind d).
Proof.
  intros H. destruct (has_type_key l) eqn:E.
  - apply split_type_key in E as [pre [k [v [post [-> [H1 H2]]]]]]. rewrite sift_first in H by assumption.
    apply no_type_key_iff in H1. apply is_type_key_iff in H2. destruct (is_string v) eqn:Ev.
    + injection H as <-. rewrite d_kind_set, d_kind_new. eapply by_type; try eassumption; [|apply kind_of_named].
      unfold is_string in Ev. split; [destruct (node_tag v); congruence|reflexivity].
    + destruct (is_seq v); [discriminate|]. destruct (node_tag v) eqn:Et; try discriminate.
      injection H as <-. apply by_include; assumption.
  - rewrite sift_shape in H by exact E. injection H as <-. rewrite d_kind_new. apply no_type_key_iff in E.
    destruct (has_key "properties" l) eqn:E1; [apply has_key_iff in E1; apply by_properties; assumption|].
    apply has_key_false in E1.
    destruct (has_key "items" l) eqn:E2; [apply has_key_iff in E2; apply by_items; assumption|].
    apply has_key_false in E2. apply by_default; assumption.
Qed.

Lemma expanded_kind {F : FloatIO} t l d : t <> TStr -> hat (Map t l) = Ok d -> classified l (d_kind d).
Proof.
  intros Ht H. destruct (hat_start t l d Ht H) as [s [H0 [_ [_ Hd]]]]. apply sift_classified in H0.
  rewrite Hd in H0. exact H0.
Qed.

Lemma first_type_unique (p1 p2 : list (node * node)) e1 e2 q1 q2 :
  p1 ++ e1 :: q1 = p2 ++ e2 :: q2 ->
  no_type_key p1 -> no_type_key p2 -> is_type_key (fst e1) = true -> is_type_key (fst e2) = true ->
  p1 = p2 /\ e1 = e2 /\ q1 = q2.
Proof.
  revert p2. induction p1 as [|a p1 IH]; intros p2 E N1 N2 T1 T2; destruct p2 as [|b p2]; simpl in E.
  - injection E as -> ->. auto.
  - injection E as -> E. exfalso. destruct (N2 b (or_introl eq_refl)). apply is_type_key_iff in T1. tauto.
  - injection E as <- E. exfalso. destruct (N1 a (or_introl eq_refl)). apply is_type_key_iff in T2. tauto.
  - injection E as -> E. destruct (IH p2 E) as [-> [-> ->]]; auto.
    + intros e He. apply N1. right; exact He.
    + intros e He. apply N2. right; exact He.
Qed.

(** A mapping has at most one kind. *)
Lemma classified_fun l k1 k2 : classified l k1 -> classified l k2 -> k1 = k2.
Proof.
  assert (Hno : forall pre (k v : node) post, (value k = "type" \/ value k = "schema") ->
            ~ no_type_key (pre ++ (k, v) :: post)).
  { intros pre k v post Hk H. destruct (H (k, v)) as [A B]; [apply in_or_app; right; left; reflexivity|].
    cbn [fst] in *. tauto. }
  intros H1 H2. inversion H1; subst; inversion H2; subst; try reflexivity; try tauto;
    try (exfalso; match goal with H : no_type_key (_ ++ _ :: _) |- _ => eapply Hno in H; [exact H|assumption] end);
    match goal with E : _ ++ _ :: _ = _ ++ _ :: _ |- _ =>
      apply first_type_unique in E as [_ [E _]]; try assumption; try (apply is_type_key_iff; assumption);
        injection E as <- <- end.
  - match goal with A : denotes_string ?v ?s, B : denotes_string ?v ?s' |- _ =>
      destruct A as [_ A]; destruct B as [_ B]; rewrite A in B; subst end.
    eapply named_fun; eassumption.
  - match goal with A : denotes_string ?v ?s, B : node_tag ?v = TInclude |- _ => destruct A; congruence end.
  - match goal with A : denotes_string ?v ?s, B : node_tag ?v = TInclude |- _ => destruct A; congruence end.
Qed.

(** ** Type() *)

Lemma aims_type d e : aims d FType e = is_type_key (fst e).
Proof.
  unfold aims, target, is_type_key. destruct d as [b|b x fs c s].
  - unfold base_target. destruct (String.eqb (value (fst e)) "type" || String.eqb (value (fst e)) "schema"); reflexivity.
  - destruct (String.eqb_spec (value (fst e)) "type") as [E|E].
    { rewrite E. destruct s; cbn; destruct (is_string (fst e)); reflexivity. }
    destruct (String.eqb_spec (value (fst e)) "schema") as [E'|E'].
    { rewrite E'. destruct s; cbn; destruct (is_string (fst e)); reflexivity. }
    assert (Hb : base_target (value (fst e)) = FExtra).
    { unfold base_target. apply String.eqb_neq in E, E'. rewrite E, E'. reflexivity. }
    rewrite Hb. unfold common_target.
    repeat match goal with |- context [if ?c then Some _ else _] => destruct c; [reflexivity|] end.
    destruct (spec_target s (value (fst e))) as [f|] eqn:Ef.
    { destruct s; cbn [spec_target] in Ef;
        repeat match type of Ef with (if ?c then _ else _) = _ => destruct c end; try discriminate;
        injection Ef as <-; reflexivity. }
    unfold ext_target.
    repeat match goal with |- context [if ?c then Some _ else _] => destruct c; [reflexivity|] end.
    destruct (is_string (fst e)); [|reflexivity].
    destruct (value (fst e)) as [|a r]; [reflexivity|]. destruct (Ascii.eqb a "("); reflexivity.
Qed.

Lemma getf_type d : getf FType d = Some (VStr (d_type d)).
Proof. destruct d; reflexivity. Qed.
Lemma getf_extra d : getf FExtra d = Some (VExtra (d_extra d)).
Proof. destruct d; reflexivity. Qed.

Lemma filter_type d l : no_type_key l -> filter (aims d FType) l = [].
Proof.
  intros H. apply filter_none. intros e He. rewrite aims_type.
  destruct (is_type_key (fst e)) eqn:E; [|reflexivity]. apply is_type_key_iff in E. destruct (H e He). tauto.
Qed.

Lemma declared_type {F : FloatIO} t pre key val post d : t <> TStr ->
  hat (Map t (pre ++ (key, val) :: post)) = Ok d ->
  no_type_key pre -> no_type_key post -> (value key = "type" \/ value key = "schema") ->
  denotes_string val (d_type d) /\ named (d_type d) (d_kind d).
Proof.
  intros Ht H H1 H2 Hk. destruct (hat_start t _ d Ht H) as [sc [Hsift [Hf [Hs Hd]]]].
  destruct (fold_fields _ _ _ _ Hf FType _ (getf_type _)) as [v [Hv Hfold]].
  rewrite filter_app in Hfold. cbn [filter] in Hfold. rewrite aims_type in Hfold. cbn [fst] in Hfold.
  rewrite (proj2 (is_type_key_iff key) Hk), (filter_type _ pre H1), (filter_type _ post H2) in Hfold. cbn in Hfold.
  rewrite bind_ret in Hfold. unfold stepper in Hfold. cbn in Hfold. apply bind_ok in Hfold as [s [Hstr E]].
  injection E as <-. rewrite getf_type in Hv. injection Hv as Hv. rewrite Hv.
  apply denotes_string_iff in Hstr. split; [exact Hstr|].
  pose proof (expanded_kind t _ d Ht H) as Hc.
  assert (Hc' : classified (pre ++ (key, val) :: post) (kind_of s)).
  { eapply by_type; try eassumption. apply kind_of_named. }
  rewrite (classified_fun _ _ _ Hc Hc'). apply kind_of_named.
Qed.

(** ** Extra facets *)

Lemma extra_key_aims d e : shaped d -> target d (fst e) <> None -> aims d FExtra e = extra_key (d_kind d) (fst e).
Proof.
  intros Hs Ht. unfold extra_key.
  destruct (existsb (String.eqb (value (fst e))) (known_keys (d_kind d))) eqn:E; cbn [negb andb].
  - apply existsb_exists in E as [s [Hin E]]. apply String.eqb_eq in E. subst s.
    apply known_key_in in Hin as [H|[H|[f [H1 H2]]]].
    + assert (Ha : aims d FType e = true) by (rewrite aims_type; apply is_type_key_iff; auto).
      unfold aims in *. destruct (target d (fst e)); [|reflexivity]. apply field_eqb_eq in Ha. subst; reflexivity.
    + assert (Ha : aims d FType e = true) by (rewrite aims_type; apply is_type_key_iff; auto).
      unfold aims in *. destruct (target d (fst e)); [|reflexivity]. apply field_eqb_eq in Ha. subst; reflexivity.
    + unfold aims. rewrite (target_facet d (fst e) f Hs H1 H2). apply field_eqb_neq. intros <-.
      destruct (d_kind d); cbn in H1; intuition discriminate.
  - assert (Hn : ~ In (value (fst e)) (known_keys (d_kind d))).
    { intros H. assert (existsb (String.eqb (value (fst e))) (known_keys (d_kind d)) = true); [|congruence].
      apply existsb_exists. exists (value (fst e)). split; [exact H|apply String.eqb_refl]. }
    unfold aims. rewrite (target_unknown d (fst e) Hs Hn) in *. unfold shaped in Hs.
    destruct d as [b|b x fs c s].
    + unfold d_kind in *; cbn [d_base] in *. destruct (b_kind b); cbn in Hs; try discriminate Hs; reflexivity.
    + destruct (is_annotation_key (fst e)) eqn:Ea.
      * unfold d_kind in *; cbn [d_base] in *. destruct (b_kind b); cbn in Hs; try discriminate Hs; reflexivity.
      * match type of Ht with (if ?c then _ else _) <> _ => destruct c end; [congruence|].
        unfold d_kind in *; cbn [d_base] in *. destruct (b_kind b); cbn in Hs; try discriminate Hs; reflexivity.
Qed.

Lemma fold_targets {F : FloatIO} rd l : forall d0 d, fold_res (type_assign rd) d0 l = Ok d ->
  forall e, In e l -> target d0 (fst e) <> None.
Proof.
  induction l as [|[k v] l IH]; intros d0 d H e He; [destruct He|].
  cbn in H. apply bind_ok in H as [d1 [H1 H]]. destruct He as [<-|He].
  - apply assign_ok in H1 as [f [old [w [T _]]]]. cbn [fst]. congruence.
  - apply assign_kind in H1 as [_ S1]. rewrite <- (target_shape d1 d0) by exact S1. eapply IH; eassumption.
Qed.

Definition put_extra (m : amap gkey gval) (e : node * node) : amap gkey gval :=
  kput (KStr (value (fst e))) (GNode (snd e)) m.

Lemma fold_extra {F : FloatIO} rd kd l m :
  fold_res (stepper rd kd FExtra) (VExtra m) l = Ok (VExtra (fold_left put_extra l m)).
Proof. revert m. induction l as [|e l IH]; intros m; [reflexivity|]. cbn. apply IH. Qed.

Lemma extras_read {F : FloatIO} t l d : t <> TStr -> hat (Map t l) = Ok d ->
  d_extra d = fold_left put_extra (filter (fun e => extra_key (d_kind d) (fst e)) l) (mkMap [] true).
Proof.
  intros Ht H. destruct (hat_start t l d Ht H) as [sc [_ [Hf [Hs Hd]]]].
  destruct (fold_fields _ _ _ _ Hf FExtra _ (getf_extra _)) as [v [Hv Hfold]].
  rewrite fold_extra in Hfold. injection Hfold as <-. rewrite getf_extra in Hv. injection Hv as Hv. rewrite Hv.
  replace (d_extra (set_schema sc (new_type (d_kind d)))) with (mkMap (K := gkey) (V := gval) [] true)
    by (destruct (d_kind d); reflexivity).
  f_equal. apply filter_ext_in. intros e He. rewrite extra_key_aims; [rewrite Hd; reflexivity|exact Hs|].
  eapply fold_targets; eassumption.
Qed.

(** One unknown key. *)
Lemma extra_assign {F : FloatIO} rd d key val : shaped d -> extra_key (d_kind d) key = true ->
  ~ denotes_string key "" ->
  exists d', type_assign rd d (key, val) = Ok d' /\
    d_extra d' = kput (KStr (value key)) (GNode val) (d_extra d) /\
    d_kind d' = d_kind d /\ (forall g, g <> FExtra -> getf g d' = getf g d).
Proof.
  intros Hs Hx He.
  assert (Ht : target d key = Some FExtra).
  { unfold extra_key in Hx. apply andb_true_iff in Hx as [H1 H2]. apply negb_true_iff in H1.
    assert (Hn : ~ In (value key) (known_keys (d_kind d))).
    { intros H. assert (existsb (String.eqb (value key)) (known_keys (d_kind d)) = true); [|congruence].
      apply existsb_exists. exists (value key). split; [exact H|apply String.eqb_refl]. }
    rewrite (target_unknown d key Hs Hn). unfold shaped in Hs. destruct d as [b|b x fs c s]; [reflexivity|].
    assert (Ha : is_annotation_key key = false).
    { unfold d_kind in *; cbn [d_base] in *. destruct (b_kind b); cbn in Hs; try discriminate Hs;
        apply negb_true_iff; exact H2. }
    rewrite Ha. destruct (is_string key && String.eqb (value key) "") eqn:Ee; [|reflexivity].
    apply andb_true_iff in Ee as [E1 E2]. apply String.eqb_eq in E2. exfalso. apply He. split; [|exact E2].
    unfold is_string in E1. destruct (node_tag key); congruence. }
  exists (setf FExtra (VExtra (kput (KStr (value key)) (GNode val) (d_extra d))) d).
  rewrite type_assign_step, Ht. unfold step_in. rewrite getf_extra. cbn [step bind].
  split; [reflexivity|]. split; [destruct d; reflexivity|]. split; [apply d_kind_setf|].
  intros g Hg. apply getf_setf_other. congruence.
Qed.

(** With distinct keys the extra facets are the unknown keys, as they are. *)
Lemma put_extra_fresh l : NoDup (map (fun e => value (fst e)) l) ->
  fold_left put_extra l (mkMap [] true) = mkMap (map (fun e => (KStr (value (fst e)), GNode (snd e))) l) true.
Proof.
  enough (H : forall l pre, NoDup (map (fun e : node * node => value (fst e)) (pre ++ l)) ->
    fold_left put_extra l (mkMap (map (fun e => (KStr (value (fst e)), GNode (snd e))) pre) true) =
    mkMap (map (fun e => (KStr (value (fst e)), GNode (snd e))) (pre ++ l)) true) by (intros Hn; apply (H l []); exact Hn).
  clear l. induction l as [|e l IH]; intros pre Hn; cbn [fold_left].
  - rewrite app_nil_r. reflexivity.
  - unfold put_extra at 2, kput. cbn [ents oord]. rewrite sput_fresh.
    + replace (pre ++ e :: l) with ((pre ++ [e]) ++ l) in * by (rewrite <- app_assoc; reflexivity).
      rewrite <- IH by exact Hn. rewrite map_app. reflexivity.
    + intros e' He'. apply in_map_iff in He' as [e0 [<- He0]]. cbn. apply String.eqb_neq. intros E.
      rewrite map_app in Hn. cbn in Hn. apply NoDup_remove_2 in Hn. apply Hn. apply in_or_app. left.
      rewrite <- E. apply in_map_iff. exists e0. auto.
Qed.

(** ** Synonyms *)

Lemma synonym_assign {F : FloatIO} rd d k k' v : is_type_key k = true -> is_type_key k' = true ->
  type_assign rd d (k, v) = type_assign rd d (k', v).
Proof.
  intros H H'. assert (Ht : forall k, is_type_key k = true -> target d k = Some FType).
  { intros k0 H0. pose proof (aims_type d (k0, v)) as A. cbn [fst] in A. rewrite H0 in A. unfold aims in A. cbn [fst] in A.
    destruct (target d k0); [|discriminate]. apply field_eqb_eq in A. congruence. }
  rewrite !type_assign_step, !Ht by assumption. reflexivity.
Qed.

Lemma synonym_sift pre k k' v post : is_type_key k = true -> is_type_key k' = true ->
  sift_type (pre ++ (k, v) :: post) = sift_type (pre ++ (k', v) :: post).
Proof.
  intros H H'. destruct (has_type_key pre) eqn:E.
  - apply split_type_key in E as [p1 [k1 [v1 [p2 [-> [H1 H2]]]]]]. rewrite <- !app_assoc. cbn [app].
    rewrite !sift_first by assumption. reflexivity.
  - rewrite !sift_first by assumption. reflexivity.
Qed.

Lemma type_synonyms {F : FloatIO} t pre k k' v post :
  (value k = "type" \/ value k = "schema") -> (value k' = "type" \/ value k' = "schema") ->
  hat (Map t (pre ++ (k, v) :: post)) = hat (Map t (pre ++ (k', v) :: post)).
Proof.
  rewrite <- !is_type_key_iff. intros H H'. rewrite !hat_eq. unfold hat_body, is_string. cbn [node_tag].
  rewrite (synonym_sift pre k k') by assumption.
  assert (E : forall d, fold_res (type_assign hat) d (pre ++ (k, v) :: post) =
                        fold_res (type_assign hat) d (pre ++ (k', v) :: post)).
  { intros d. rewrite !fold_res_app. apply bind_ext. intros d' _. cbn. rewrite (synonym_assign hat d' k k') by assumption.
    reflexivity. }
  destruct t; try reflexivity; apply bind_ext; intros d _; apply E.
Qed.

(** ** Accepted forms *)

Lemma forms_refuted {F : FloatIO} : hat (Scal TNull "") = Err.
Proof. reflexivity. Qed.

Lemma scalar_forms {F : FloatIO} tg v :
  match tg with
  | TStr => hat (Scal tg v) = Ok (set_schema v (new_type (kind_of v)))
  | TInclude => hat (Scal tg v) = Ok (set_schema v (new_type TyInclude))
  | _ => hat (Scal tg v) = Err
  end.
Proof.
  destruct tg; try reflexivity. apply (hat_string (Scal TStr v) v). split; reflexivity.
Qed.

Lemma seq_forms {F : FloatIO} tg l : tg <> TStr -> hat (Seq tg l) = Err.
Proof. intros H. destruct tg; try reflexivity. congruence. Qed.

(** ** Enumerations *)

Lemma enum_read {F : FloatIO} t pre key val post d : t <> TStr ->
  hat (Map t (pre ++ (key, val) :: post)) = Ok d -> In FEnum (facets_of (d_kind d)) ->
  value key = "enum" -> ~ mentions "enum" pre -> ~ mentions "enum" post ->
  exists tg ns vs o, val = Seq tg ns /\ Forall2 (enum_value (d_kind d)) ns vs /\
    getf FEnum d = Some (VVals o) /\ opt_list o = vs.
Proof.
  intros Ht H Hi Hk H1 H2. rewrite <- Hk in H1, H2.
  destruct (facet_once t pre key val post d FEnum Ht H Hi) as [v [Hv Hg]]; [cbn; congruence|assumption..|].
  cbn in Hv. destruct Hv as [tg [ns [vs [o [-> [E [Hf ->]]]]]]]. injection E as <-.
  exists tg, ns, vs, (match vs with [] => None | _ => Some vs end). split; [reflexivity|]. split; [exact Hf|].
  split; [rewrite Hg; destruct vs; reflexivity|]. destruct vs; reflexivity.
Qed.
