(** C68: formatting twice. *)
From Coq Require Import SpecFloat.
From Verif Require Import Base Num OMap OMapSpec Keys Yaml Values Assign Formats Meta Out Xml Example DataType Marshal
  AssignProofs TypeFacts Fields FieldProofs FacetSpec FacetProofs DocProofs OrderProofs PathProofs TypeWrite Segs ExProofs Same ExRound TypeSegs WriteSpec WriteProofs
  ReadInv RoundSpec RoundProofs WasRead Writable Stable IdemSpec.

Section Idem.
  Context {F : FloatIO}.

  (** ** Examples *)

  Lemma fold_res_in {A B} (g : A -> B -> res A) l : forall a b e, fold_res g a l = Ok b -> In e l -> exists a1 a2, g a1 e = Ok a2.
  Proof.
    induction l as [|x l IH]; intros a b e H Hi; [destruct Hi|]. cbn in H. apply bind_ok in H as [a1 [H1 H]].
    destruct Hi as [<-|Hi]; [eauto|]. exact (IH _ _ _ H Hi).
  Qed.

  Lemma wrote_in o l e : Forall2 wrote o l -> In e o -> exists p, In p l /\ wrote e p.
  Proof.
    intros H. induction H as [|x y o l W H IH]; [intros []|]. intros [<-|Hi]; [exists y; split; [left; reflexivity|exact W]|].
    destruct (IH Hi) as [p [P1 P2]]. exists p. split; [right; exact P1|exact P2].
  Qed.

  Lemma ordered_seq {K V} (kn : K -> res node) (vn : V -> res node) (m : amap K V) n : oord m = true -> map_to_yaml kn vn m = Ok n ->
    exists l, n = Seq TOMap l.
  Proof. intros H W. unfold map_to_yaml in W. rewrite H in W. apply bind_ok in W as [l [_ W]]. injection W as <-. eauto. Qed.

  Lemma read_amap_seq {V} (dec : node -> res V) m t l m' : read_amap dec m (Seq t l) = Ok m' -> False.
  Proof. discriminate. Qed.

  Lemma ex_segs_apart_read k n e : read_ex k n = Ok e -> apart (map fst (ex_segs e)) = true.
  Proof.
    intros H. destruct (read_ex_read k n e H) as [_ [[_ [R2 R3]] [_ [R4 _]]]]. apply ex_keys_apart; [exact R2| |exact R4|].
    - intros s Hs. apply in_map_iff in Hs as [[s' a] [<- Hi]]. apply (R3 s' a Hi).
    - intros s Hs. apply (ex_extra_names k n e s H Hs).
  Qed.

  Lemma ex_again k n e m e' : read_ex k n = Ok e -> exact_ex e -> ex_to_yaml e = Ok m -> read_ex k m = Ok e' -> e' = e.
  Proof.
    intros H [X1 X2] W R. destruct (ex_expand e) eqn:Ee.
    2:{ rewrite (ex_short_broken k e m) in R; [discriminate R| |exact W]. intros M. apply expand_iff in M. congruence. }
    assert (Ha : ents (ex_anns e) = []).
    { destruct (ents (ex_anns e)) as [|[s a] r] eqn:Ea; [reflexivity|]. exfalso. destruct (read_ex_read k n e H) as [_ [[_ [_ R2]] _]].
      destruct (R2 s a) as [P [Oa _]]; [rewrite Ea; left; reflexivity|].
      unfold ex_to_yaml in W. rewrite ex_marshal_segs in W by exact Ee. rewrite puts_fresh_nil in W by (eapply ex_segs_apart_read; exact H).
      apply out_to_yaml_ok in W as [l [-> W]].
      destruct (wrote_in _ _ (KStr s, untyped_to_yaml a) W) as [[pk pv] [Hp [K1 K2]]].
      { unfold ex_segs. rewrite Ea. rewrite !in_app_iff. cbn. tauto. }
      cbn in K1, K2. injection K1 as <-. destruct (ordered_seq _ _ _ _ Oa K2) as [q ->].
      unfold read_ex, ex_unmarshal in R. destruct (fold_res_in _ _ _ _ _ R Hp) as [e1 [e2 R']].
      unfold ex_assign in R'. cbn [fst snd is_string node_tag str_node negb value] in R'. destruct s as [|c s]; [discriminate R'|].
      cbn in P. rewrite P in R'. discriminate R'. }
    assert (Se : settled_ex e) by (split; [apply expand_iff; exact Ee|auto]).
    destruct (ex_round_trip k e (proj1 Se) (settled_ex_returns k n e H Se)) as [m' [e2 [W' [R' Sm]]]].
    assert (m' = m) by congruence. subst m'. assert (e2 = e') by congruence. subst e2. symmetry.
    eapply same_ex_eq; [exact Sm|eapply read_ex_read; exact H|eapply read_ex_read; exact R].
  Qed.

  (** ** One field *)

  Definition again (t : dtype) : Prop := forall n t', to_yaml t = Ok n -> hat n = Ok t' -> to_yaml t' = Ok n.

  Lemma map_again {V} (dec : node -> res V) (vn : V -> res node) (m : amap string V) n m' : oord m = false -> NoDup (map fst (ents m)) ->
    (forall k v nv v', In (k, v) (ents m) -> vn v = Ok nv -> dec nv = Ok v' -> vn v' = Ok nv) ->
    map_to_yaml skey_node vn m = Ok n -> read_amap dec (mkMap [] false) n = Ok m' ->
    map_to_yaml skey_node vn m' = Ok n /\ nonempty m' = nonempty m.
  Proof.
    intros Ho Hn Hv W R. unfold map_to_yaml in W. rewrite Ho in W. apply bind_ok in W as [l [Hl W]]. injection W as <-.
    apply read_amap_map in R as [t [l' [kvs [E [Ha ->]]]]]. injection E as <- <-.
    pose proof (map_res_entries _ _ _ _ Hl) as He.
    assert (K : map fst kvs = map fst (ents m)).
    { clear -He Ha. revert kvs Ha. induction He as [|[k v] [kn nv] es l [A B] He IH]; intros kvs Ha; inversion Ha as [|p q x y C D]; subst; [reflexivity|].
      destruct q as [k' v']. destruct C as [C _]. cbn in *. f_equal; [|apply IH; exact D]. injection A as <-. destruct C as [_ C]. cbn in C. congruence. }
    rewrite (mputs_fresh kvs [] false) by (cbn; rewrite K; exact Hn). cbn [app]. split.
    - unfold map_to_yaml. cbn [oord ents]. assert (M : map_res (entry_node skey_node vn) kvs = Ok l); [|rewrite M; reflexivity].
      clear -He Ha Hv. revert kvs Ha. induction He as [|[k v] [kn nv] es l [A B] He IH]; intros kvs Ha; inversion Ha as [|p q x y C D]; subst; [reflexivity|].
      destruct q as [k' v']. destruct C as [C C']. cbn in *. injection A as <-. destruct C as [_ C]. cbn in C. subst k'.
      unfold entry_node at 1. cbn. rewrite (Hv k v nv v' (or_introl eq_refl) B C'). cbn. rewrite IH; [reflexivity| |exact D].
      intros k0 v0 nv0 v0' Hi. apply (Hv k0). right. exact Hi.
    - unfold nonempty. cbn [ents]. destruct kvs, (ents m); try discriminate K; reflexivity.
  Qed.

  Lemma elems_again k l ws : (forall g, In g l -> exists n, enum_elem k n = Ok g) -> Forall2 (same_of k) l ws -> (forall w, In w ws -> exists n, enum_elem k n = Ok w) -> ws = l.
  Proof.
    intros H1 H H3. induction H as [|v w l ws S H IH]; [reflexivity|]. f_equal.
    - symmetry. eapply same_of_eq_elem; [exact S|apply H1; left; reflexivity|apply H3; left; reflexivity].
    - apply IH; intros; [apply H1|apply H3]; right; assumption.
  Qed.

  Lemma int_node_in z z' : to_int (int_node z) = Ok z' -> (- 2 ^ 63 <= z <= 2 ^ 63 - 1)%Z.
  Proof.
    intros H. pose proof (to_int_in _ _ H) as R. cbn -[parse_int64 print_int] in H.
    destruct (parse_int64 (print_int z)) as [y|] eqn:E; [|discriminate H]. apply parse_print_int_iff in E as [-> _]. injection H as <-. exact R.
  Qed.

  Lemma written_again P k f v key n w : same_sort v (default_value k f) = true -> f <> FType -> f <> FExtra -> f <> FAnns ->
    field_read P k f v ->
    (forall x, v = VOptFloat (Some x) -> exact_float x) ->
    (forall l x, v = VVals (Some l) -> In (GFloat x) l -> exact_float x) ->
    (forall e, v = VEx (Some e) -> exact_ex e) ->
    (forall m s e, v = VExs m -> In (s, e) (ents m) -> exact_ex e) ->
    (forall t, v = VOptType (Some t) -> again t) ->
    (forall m s t, v = VTypes m -> In (s, t) (ents m) -> again t) ->
    written to_yaml k f v = Some (Ok n) -> step hat k f key n (default_value k f) = Ok w -> written to_yaml k f w = Some (Ok n).
  Proof.
    intros S N1 N2 N3 Rd Hfl Hen Hex Hexs Hit Hpr W R.
    assert (Cut : forall Q, field_returns Q k f v -> (forall t, Q t -> comes_back t /\ shaped t) -> (forall w', same_fval same_type k v w' -> w' = w -> w = v) -> w = v).
    { intros Q Hq Qc Hw. pose proof (written_round k f v S N1 N2 N3 (field_returns_mono _ _ k f v Qc Hq)) as X. rewrite W in X.
      destruct X as [_ [n0 [w0 [E [St Sm]]]]]. injection E as <-. rewrite St in R. injection R as <-. apply (Hw w0 Sm eq_refl). }
    assert (Done : w = v -> written to_yaml k f w = Some (Ok n)) by (intros ->; exact W).
    destruct v as [s|o|b|z|o|o|o|o|o|o|m|m|m|o|o|m|m]; cbn [field_read] in Rd.
    - destruct f; cbn in S; destruct k; try discriminate S; congruence.
    - apply Done, (Cut (fun _ => False)); [apply ret_optstr|intros t []|]. intros w' Sm <-. inversion Sm; reflexivity.
    - apply Done, (Cut (fun _ => False)); [apply ret_bool|intros t []|]. intros w' Sm <-. inversion Sm; reflexivity.
    - assert (B : (z <= 2 ^ 63 - 1)%Z).
      { cbn [written] in W. match type of W with (if ?c then _ else _) = _ => destruct c; [discriminate W|] end. injection W as <-.
        destruct f; cbn in S; destruct k; try discriminate S; cbn [step default_value] in R; apply bind_ok in R as [z' [R _]]; apply int_node_in in R; lia. }
      apply Done, (Cut (fun _ => False)); [apply ret_int; lia|intros t []|]. intros w' Sm <-. inversion Sm; reflexivity.
    - destruct o as [z|]; [|discriminate W]. cbn [written int_opt option_map] in W. injection W as <-.
      assert (B : (- 2 ^ 63 <= z <= 2 ^ 63 - 1)%Z).
      { destruct f; cbn in S; destruct k; try discriminate S; cbn [step default_value] in R; apply bind_ok in R as [z' [R _]]; apply int_node_in in R; lia. }
      apply Done, (Cut (fun _ => False)); [apply ret_optint|intros t []|intros w' Sm <-; inversion Sm; reflexivity].
      intros z' E. injection E as <-. split; [exact B|]. intros Sg. rewrite Sg in Rd. lia.
    - apply Done, (Cut (fun _ => False)); [apply ret_optfloat; intros x ->; apply Hfl; reflexivity|intros t []|]. intros w' Sm <-. inversion Sm; reflexivity.
    - apply Done, (Cut (fun _ => False)); [apply ret_strs|intros t []|]. intros w' Sm <-. inversion Sm; reflexivity.
    - destruct f; try discriminate S; try (destruct k; discriminate S); try (destruct o; [destruct Rd as [Rd _]; congruence|discriminate W]).
      cbn [step] in R. injection R as <-. reflexivity.
    - destruct f; try discriminate S; try (destruct k; discriminate S). destruct o as [l|]; [|discriminate W]. destruct Rd as [Rd0 Rd].
      apply Done, (Cut (fun _ => False)); [|intros t []|].
      + apply ret_vals. intros g Hi. destruct (Rd g Hi) as [m Hm]. eapply elem_returns; [exact Hm|]. intros x ->. exact (Hen l x eq_refl Hi).
      + intros w' Sm ->. cbn [step default_value] in R. apply bind_ok in R as [l' [R E]]. injection E as <-. apply read_enum_iff in R as [t [ns [vs [_ [Hv ->]]]]].
        inversion Sm as [|a b Hs|a b Hs| | | | | | |]; [destruct vs; cbn [opt_list app] in *; congruence|]. subst. cbn [opt_list] in Hs.
        assert (Q : forall g, In g vs -> exists n0, enum_elem k n0 = Ok g).
        { clear -Hv. intros g Hg. induction Hv as [|a b l l' A _ IH]; [destruct Hg|]. destruct Hg as [<-|Hg]; [|auto]. exists a. apply enum_elem_iff. exact A. }
        assert (L : vs = l).
        { destruct vs as [|v0 vs]; cbn in Hs; apply (elems_again k l); assumption. }
        subst vs. destruct l; [congruence|reflexivity].
    - destruct f; try discriminate S; try (destruct k; discriminate S). destruct o as [t|]; [|discriminate W]. cbn [written option_map] in W. injection W as W.
      cbn [step] in R. apply bind_ok in R as [t' [R E]]. injection E as <-. cbn. f_equal. apply (Hit t eq_refl n t' W R).
    - destruct f; try discriminate S; try (destruct k; discriminate S). cbn [written] in W. destruct (nonempty m) eqn:Em; [|discriminate W]. injection W as W.
      cbn [step default_value] in R. apply bind_ok in R as [m' [R E]]. injection E as <-. destruct Rd as [R1 [R2 R3]].
      destruct (map_again (fun v => do d <- hat v; as_property d) to_yaml m n m' R1 R2) as [A B]; [|exact W|exact R|cbn [written]; rewrite B, Em; f_equal; exact A].
      intros s t nv t' Hi Wt Rt. apply bind_ok in Rt as [t0 [Rt Ep]]. destruct t0; [discriminate Ep|]. injection Ep as <-. exact (Hpr m s t eq_refl Hi nv _ Wt Rt).
    - destruct f; try discriminate S; try (destruct k; discriminate S). exfalso. cbn [written] in W. destruct (nonempty m) eqn:Em; [|discriminate W]. injection W as W.
      destruct Rd as [R1 _]. destruct (ordered_seq _ _ _ _ R1 W) as [q ->]. cbn [step default_value] in R. discriminate R.
    - destruct f; try discriminate S; try congruence; destruct k; discriminate S.
    - destruct f; try discriminate S; try (destruct k; discriminate S). destruct o as [x|]; [|discriminate W]. cbn [written option_map] in W. unfold xml_node in W. injection W as <-.
      cbn [step] in R. apply bind_ok in R as [x' [R E]]. injection E as <-. reflexivity.
    - destruct f; try discriminate S; try (destruct k; discriminate S). destruct o as [e|]; [|discriminate W]. cbn [written option_map] in W. injection W as W.
      destruct Rd as [E1 [ne Re]]. cbn [step] in R. rewrite E1 in R. apply bind_ok in R as [e' [R E]]. injection E as <-. cbn. f_equal.
      rewrite (ex_again k ne e n e' Re (Hex e eq_refl) W R). exact W.
    - destruct f; try discriminate S; try (destruct k; discriminate S). cbn [written] in W. destruct (nonempty m) eqn:Em; [|discriminate W]. injection W as W.
      cbn [step default_value] in R. apply bind_ok in R as [m' [R E]]. injection E as <-. destruct Rd as [R1 [R2 R3]].
      destruct (map_again (read_ex k) ex_to_yaml m n m' R1 R2) as [A B]; [|exact W|exact R|cbn [written]; rewrite B, Em; f_equal; exact A].
      intros s e nv e' Hi We Re. destruct (R3 s e Hi) as [ne Rn]. rewrite (ex_again k ne e nv e' Rn (Hexs m s e eq_refl Hi) We Re). exact We.
    - destruct f; try discriminate S; try congruence; destruct k; discriminate S.
  Qed.

  (** ** The whole definition *)

  Lemma fold_steps l : forall d0 d e, fold_res (type_assign hat) d0 l = Ok d -> In e l ->
    exists f old v, target d0 (fst e) = Some f /\ step hat (d_kind d0) f (fst e) (snd e) old = Ok v.
  Proof.
    induction l as [|x l IH]; intros d0 d e H Hi; [destruct Hi|]. cbn in H. apply bind_ok in H as [d1 [H1 H]]. destruct Hi as [<-|Hi].
    - destruct x as [key val]. apply assign_ok in H1 as [f [old [v [A [_ [B _]]]]]]. exists f, old, v. auto.
    - destruct (IH d1 d e H Hi) as [f [old [v [A B]]]]. apply assign_kind in H1 as [K1 S1]. exists f, old, v. rewrite <- K1.
      rewrite (target_shape d1 d0) in A by exact S1. auto.
  Qed.

  Lemma list_split d d0 order : forall l, NoDup order -> Forall2 wrote (flat_map (field_segs to_yaml d) order) l ->
    (forall f lf, In f order -> Forall2 wrote (field_segs to_yaml d f) lf -> (forall e, In e lf -> In e l) -> forall e, In e lf -> aims d0 f e = true) ->
    l = flat_map (fun f => filter (aims d0 f) l) order /\
    forall f, In f order -> Forall2 wrote (field_segs to_yaml d f) (filter (aims d0 f) l).
  Proof.
    induction order as [|g order IH]; intros l Hn W A.
    - inversion W; subst. split; [reflexivity|intros f []].
    - cbn in W. apply Forall2_app_inv_l in W as [lg [l2 [Wg [W2 ->]]]]. inversion Hn as [|x y N1 N2]; subst.
      destruct (IH l2 N2 W2) as [E Q].
      { intros f lf Hf Wf Hl. apply A; [right; exact Hf|exact Wf|]. intros e He. apply in_or_app. right. exact (Hl e He). }
      assert (Ag : forall e, In e lg -> aims d0 g e = true).
      { apply A; [left; reflexivity|exact Wg|]. intros e He. apply in_or_app. left. exact He. }
      assert (Hg : filter (aims d0 g) l2 = []).
      { apply filter_none. intros e He. destruct (aims d0 g e) eqn:Ea; [|reflexivity]. exfalso. rewrite E in He.
        apply in_flat_map in He as [f [Hf He]]. apply filter_In in He as [_ He]. apply N1. rewrite (aims_one d0 g f e Ea He). exact Hf. }
      assert (Hf : forall f, In f order -> filter (aims d0 f) (lg ++ l2) = filter (aims d0 f) l2).
      { intros f Hf. rewrite filter_app, (filter_none (aims d0 f) lg); [reflexivity|]. intros e He. destruct (aims d0 f e) eqn:Ea; [|reflexivity]. exfalso.
        apply N1. rewrite <- (aims_one d0 f g e Ea (Ag e He)). exact Hf. }
      assert (Hgg : filter (aims d0 g) (lg ++ l2) = lg) by (rewrite filter_app, Hg, app_nil_r; apply filter_all; exact Ag).
      split.
      + cbn. rewrite Hgg. f_equal. rewrite E at 1. clear -Hf. induction order as [|f order IHo]; [reflexivity|]. cbn.
        rewrite (Hf f (or_introl eq_refl)), IHo; [reflexivity|]. intros f' Hf'. apply Hf. right. exact Hf'.
      + intros f [<-|Hi]; [rewrite Hgg; exact Wg|rewrite Hf by exact Hi; apply Q; exact Hi].
  Qed.

  Lemma default_unwritten d f v : shaped d -> getf f d = Some v -> f <> FType ->
    match default_value (d_kind d) f with
    | VExtra m => ents m = []
    | VAnns m => ents m = []
    | v => written to_yaml (d_kind d) f v = None
    end.
  Proof.
    intros Hs G N. destruct d as [b|b x fs c s].
    - unfold shaped, d_kind in *. cbn [d_base] in *. destruct (b_kind b); try discriminate Hs; destruct f; try discriminate G; try congruence; reflexivity.
    - destruct (shaped_cases b x fs c s Hs) as [N1 [N2 H]]. unfold d_kind in *. cbn [d_base] in *.
      destruct (b_kind b); try congruence; destruct s; try discriminate H; destruct f; try discriminate G; try congruence; reflexivity.
  Qed.

  Lemma only_new k s : only_type (set_schema s (new_type k)).
  Proof. intros f v N G. destruct k; destruct f; cbn in G; try discriminate G; try congruence; injection G as <-; reflexivity. Qed.

  Lemma is_short_len d : is_short (segs to_yaml d) = (List.length (segs to_yaml d) =? 1)%nat.
  Proof. unfold is_short. rewrite (has_type to_yaml d). apply andb_true_r. Qed.

  Lemma wrote_length o l : Forall2 wrote o l -> List.length o = List.length l.
  Proof. intros H. induction H; cbn; congruence. Qed.

  Lemma wrote_nil l : Forall2 wrote [] l -> l = [].
  Proof. intros H. inversion H. reflexivity. Qed.
  Lemma wrote_one k r l : Forall2 wrote [(KStr k, r)] l -> exists n, r = Ok n /\ l = [(str_node k, n)].
  Proof.
    intros H. inversion H as [|a b x y [P1 P2] W]; subst. inversion W; subst. destruct b as [bk bv]. cbn in P1, P2. injection P1 as <-. eauto.
  Qed.

  Lemma flat_wrote (g : field -> outm) (h : field -> list (node * node)) order : (forall f, In f order -> Forall2 wrote (g f) (h f)) ->
    Forall2 wrote (flat_map g order) (flat_map h order).
  Proof.
    induction order as [|f order IH]; intros H; [constructor|]. cbn. apply Forall2_app; [apply H; left; reflexivity|].
    apply IH. intros f' Hf. apply H. right. exact Hf.
  Qed.

  Lemma shaped_not_nil b x f c s : shaped (TExt b x f c s) -> d_kind (TExt b x f c s) <> TyNil.
  Proof. intros S E. destruct (shaped_cases b x f c s S) as [M1 [M2 _]]. unfold d_kind in E. cbn [d_base] in E. congruence. Qed.
  Lemma has_anns_kind d s : shaped d -> In s (ann_keys_of d) -> d_kind d <> TyNil /\ d_kind d <> TyInclude.
  Proof.
    intros S I. destruct d as [b|b x f c p]; [destruct I|]. destruct (shaped_cases b x f c p S) as [M1 [M2 _]]. unfold d_kind. cbn [d_base]. split; congruence.
  Qed.
  Lemma regular_again d : regular d -> forall n, hat n = Ok d -> again d.
  Proof.
    induction 1 as [d Hnm Hpar Hfl Hen Hex Hexs Hit IHit Hpr IHpr]. intros n Hn n' d' W R.
    pose proof (hat_shaped n d Hn) as Hs.
    assert (Hann : forall s, In s (ann_keys_of d) -> starts_paren s = true).
    { intros s Hi. unfold ann_keys_of in Hi. destruct (getf FAnns d) as [v|] eqn:G; [|destruct Hi]. pose proof (hat_read n d Hn _ _ G) as Rd.
      destruct v; try destruct Hi. destruct Rd as [_ [_ Rd]]. apply in_map_iff in Hi as [[s' a] [<- Hi]]. apply (Rd s' a Hi). }
    assert (Ht : tidy d).
    { apply (read_tidy_apart n d Hn). intros s Hi Hx. pose proof (has_anns_kind d s Hs Hi) as [Q1 Q2]. apply Hann in Hi. specialize (Hpar Q1 Q2 s Hx). congruence. }
    rewrite written_pairs in W by exact Ht. destruct (is_short (segs to_yaml d)) eqn:Es.
    - injection W as <-. unfold type_node in *. assert (E : d' = set_schema (d_type d) (new_type (d_kind d))).
      { unfold type_node in R. unfold d_kind, d_type in *. destruct (b_kind (d_base d)); rewrite hat_eq in R; cbn -[type_to_kind new_type] in R; injection R as <-; try reflexivity;
          rewrite type_to_kind_eq; rewrite (proj1 (named_kind_of _ _) (Hnm ltac:(discriminate))); reflexivity. }
      subst d'. destruct (written_form _ (tidy_new (d_kind d) (d_type d))) as [Wo _]. rewrite d_kind_set, d_kind_new, d_type_set in Wo.
      unfold d_kind, d_type in *. destruct (b_kind (d_base d)) eqn:Ek; rewrite Wo by apply only_new; reflexivity.
    - apply out_to_yaml_ok in W as [l [-> W]].
      assert (Y : to_yaml d = Ok (Map TMap l)).
      { rewrite written_pairs, Es by exact Ht. apply out_to_yaml_ok. eauto. }
      pose proof R as R0. apply hat_map in R as [d0 [R1 R2]]; [|discriminate].
      destruct (type_pair d l Ht Y) as [p [q [El Hp]]].
      assert (Kd : d_kind d <> TyInclude).
      { intros E. destruct (fold_steps l d0 d' (str_node "type", type_node (d_base d)) R2) as [f [old [v [A B]]]].
        { rewrite El. apply in_or_app. right. left. reflexivity. }
        pose proof (aims_type d0 (str_node "type", type_node (d_base d))) as C. unfold aims in C. rewrite A in C. apply field_eqb_eq in C. subst f.
        cbn [step fst snd] in B. unfold type_node in B. unfold d_kind in E. rewrite E in B. discriminate B. }
      specialize (Hnm Kd). apply named_kind_of in Hnm.
      assert (Tn : type_node (d_base d) = str_node (d_type d)).
      { unfold type_node, d_kind, d_type in *. destruct (b_kind (d_base d)); congruence. }
      assert (E0 : d0 = set_schema (d_type d) (new_type (d_kind d))).
      { rewrite El, sift_first in R1 by (reflexivity || exact Hp). rewrite Tn in R1. cbn in R1. rewrite Hnm in R1. injection R1 as <-. reflexivity. }
      assert (S0 : shaped d0) by (rewrite E0; apply shaped_set_schema, shaped_new).
      assert (K0 : d_kind d0 = d_kind d) by (rewrite E0, d_kind_set, d_kind_new; reflexivity).
      pose proof (fold_kind _ _ _ _ R2) as [K' S'].
      assert (Hna : forall m, getf FAnns d = Some (VAnns m) -> ents m = []).
      { intros m G. destruct (ents m) as [|[s a] r] eqn:Em; [reflexivity|exfalso]. pose proof (hat_read n d Hn _ _ G) as [_ [_ Rd]].
        destruct (Rd s a) as [Ps [Oa _]]; [rewrite Em; left; reflexivity|].
        destruct (wrote_in _ _ (KStr s, untyped_to_yaml a) W) as [[pk pv] [Hi [P1 P2]]].
        { apply in_flat_map. exists FAnns. split; [eapply in_write_order; eassumption|]. unfold field_segs. rewrite G, Em. left. reflexivity. }
        cbn in P1, P2. injection P1 as <-. destruct (ordered_seq _ _ _ _ Oa P2) as [sq ->].
        destruct (fold_steps l d0 d' _ R2 Hi) as [f [old [v [A B]]]]. cbn [fst] in A.
        rewrite target_unknown in A; [|exact S0|cbn; intros Hk; apply known_no_paren in Hk; congruence].
        assert (Hd : exists b x fs c p, d0 = TExt b x fs c p).
        { rewrite E0. destruct d as [b|b x fs c p0]; [discriminate G|]. destruct (shaped_cases b x fs c p0 Hs) as [M1 [M2 _]].
          unfold d_kind. cbn [d_base]. destruct (b_kind b); try congruence; cbn; eauto 6. }
        destruct Hd as [b [x [fs [c [p0 Hd]]]]]. rewrite Hd in A. unfold is_annotation_key in A. cbn [is_string str_node node_tag value andb] in A.
        change (match s with EmptyString => false | String c _ => Ascii.eqb c "(" end) with (starts_paren s) in A. rewrite Ps in A. injection A as <-.
        cbn [step fst snd] in B. destruct old; discriminate B. }
      assert (Hseg : forall f v, getf f d = Some v -> f <> FType -> f <> FExtra -> f <> FAnns ->
                field_segs to_yaml d f = opt_seg (written_key f) (written to_yaml (d_kind d) f v) /\
                forall w, same_sort w (default_value (d_kind d) f) = true -> getf f d' = Some w ->
                  field_segs to_yaml d' f = opt_seg (written_key f) (written to_yaml (d_kind d) f w)).
      { assert (Q : forall t f v, d_kind t = d_kind d -> getf f t = Some v -> same_sort v (default_value (d_kind d) f) = true ->
                  f <> FType -> f <> FExtra -> f <> FAnns -> field_segs to_yaml t f = opt_seg (written_key f) (written to_yaml (d_kind d) f v)).
        { intros t f v Kt G Sv N1 N2 N3. unfold field_segs. rewrite G, Kt. destruct v; try reflexivity; exfalso; destruct f; cbn in Sv; try congruence; destruct (d_kind d); discriminate Sv. }
        intros f v G N1 N2 N3. split; [apply Q; auto; apply get_spec_sort; assumption|]. intros w Sw Gw. apply Q; auto. congruence. }
      destruct (list_split d d0 (write_order (d_kind d)) l (write_order_nodup _) W) as [El2 Hfs].
      { intros f lf _ Wf Hl e He. destruct (getf f d) as [v|] eqn:G.
        2:{ unfold field_segs in Wf. rewrite G in Wf. apply wrote_nil in Wf. rewrite Wf in He. destruct He. }
        destruct (field_dec f FType) as [->|N1].
        { unfold field_segs in Wf. rewrite getf_type in Wf. cbn in Wf. apply wrote_one in Wf as [nt [_ Wf]]. rewrite Wf in He.
          destruct He as [<-|[]]. rewrite aims_type. reflexivity. }
        destruct (field_dec f FExtra) as [->|N2].
        { unfold field_segs in Wf. rewrite G in Wf. pose proof (hat_read n d Hn _ _ G) as Rd. rewrite getf_extra in G. injection G as <-.
          assert (X : exists s, fst e = str_node s /\ In (KStr s) (extra_keys d)).
          { destruct Rd as [_ Rd]. unfold extra_keys. clear -Wf He Rd. revert lf Wf He. induction (ents (d_extra d)) as [|[a g] r IH]; intros lf Wf He;
              inversion Wf as [|x p0 y z [P1 P2] Wf']; subst; [destruct He|]. destruct (Rd a g (or_introl eq_refl)) as [[s ->] _]. destruct He as [<-|He].
            - exists s. cbn in P1. split; [congruence|left; reflexivity].
            - destruct (IH (fun a g H => Rd a g (or_intror H)) z Wf' He) as [s' [Q1 Q2]]. exists s'. split; [exact Q1|right; exact Q2]. }
          destruct X as [s [Es' Hx]]. destruct (fold_steps l d0 d' e R2 (Hl e He)) as [f [old [v [A _]]]]. unfold aims. rewrite A.
          rewrite Es', target_unknown in A; [|exact S0|rewrite K0; cbn; eapply extra_unknown; eassumption].
          destruct d0 as [b0|b0 x0 fs0 c0 p0]; [injection A as <-; reflexivity|]. unfold is_annotation_key in A. cbn [is_string str_node node_tag value andb] in A.
          change (match s with EmptyString => false | String c _ => Ascii.eqb c "(" end) with (starts_paren s) in A. 
          assert (Q1 : d_kind d <> TyNil) by (intros Q; rewrite <- K0 in Q; exact (shaped_not_nil b0 x0 fs0 c0 p0 S0 Q)). rewrite (Hpar Q1 Kd s Hx) in A.
          destruct (String.eqb s ""); [discriminate A|]. injection A as <-. reflexivity. }
        destruct (field_dec f FAnns) as [->|N3].
        { pose proof (get_spec_sort d _ _ Hs G) as Sv. destruct v; cbn in Sv; try (destruct (d_kind d); discriminate Sv).
          unfold field_segs in Wf. rewrite G, (Hna m G) in Wf. apply wrote_nil in Wf. rewrite Wf in He. destruct He. }
        rewrite (proj1 (Hseg f v G N1 N2 N3)) in Wf. destruct (written to_yaml (d_kind d) f v) as [r|] eqn:Ew; [|apply wrote_nil in Wf; rewrite Wf in He; destruct He].
        assert (N4 : f <> FDefault).
        { intros ->. pose proof (hat_read n d Hn _ _ G) as Rd. pose proof (get_spec_sort d _ _ Hs G) as Sv.
          destruct v as [s|o|b|z|o|o|o|o|o|o|m|m|m|o|o|m|m]; cbn in Sv; try (destruct (d_kind d); discriminate Sv). destruct o; [destruct Rd as [Rd _]; congruence|discriminate Ew]. }
        apply wrote_one in Wf as [nt [_ Wf]]. rewrite Wf in He. destruct He as [<-|[]].
        destruct (facet_in d f v Hs G N1 N2 N3 N4) as [I1 I2]. rewrite (aims_facet d0 f (written_key f)); [apply String.eqb_refl|exact S0|rewrite K0; exact I1|exact I2]. }
      assert (Hw : forall f, In f (write_order (d_kind d)) -> Forall2 wrote (field_segs to_yaml d' f) (filter (aims d0 f) l)).
      { intros f Hf. specialize (Hfs f Hf). destruct (getf f d) as [v|] eqn:G.
        2:{ unfold field_segs in *. rewrite G in Hfs. rewrite (shaped_has d d' f Hs (hat_shaped _ _ R0) (eq_sym (eq_trans K' K0)) G). exact Hfs. }
        pose proof (get_spec_sort d _ _ Hs G) as Sv.
        destruct (field_dec f FType) as [->|N1].
        { destruct (fold_fields _ _ _ _ R2 FType _ (getf_type d0)) as [w [Gw Fw]]. unfold field_segs in *. rewrite getf_type in Hfs, Gw |- *. injection Gw as <-.
          cbn [written opt_seg] in *. assert (Kn : d_kind d' = d_kind d) by congruence. rewrite Kn.
          apply wrote_one in Hfs as [bv [P2 Hfs]]. rewrite Hfs in Fw |- *. injection P2 as P2.
          assert (Ev : match d_kind d with TyInclude => Scal TInclude (d_type d) | _ => str_node (d_type d) end = str_node (d_type d)) by (destruct (d_kind d); congruence).
          rewrite Ev in P2. subst bv. cbn in Fw. injection Fw as Fw. rewrite <- Fw.
          constructor; [|constructor]. split; [reflexivity|]. cbn. rewrite Ev. reflexivity. }
        assert (G0 : getf f d0 = Some (default_value (d_kind d) f)) by (rewrite E0; eapply start_field; eassumption).
        destruct (fold_fields _ _ _ _ R2 f _ G0) as [w [Gw Fw]]. rewrite K0 in Fw.
        assert (Sw : same_sort w (default_value (d_kind d) f) = true).
        { rewrite <- (eq_trans K' K0). apply get_spec_sort; [exact (hat_shaped _ _ R0)|exact Gw]. }
        pose proof (default_unwritten d f v Hs G N1) as Du.
        destruct (field_dec f FExtra) as [->|N2].
        { pose proof (hat_read n d Hn _ _ G) as Rd. rewrite getf_extra in G. injection G as <-.
          assert (Ev : default_value (d_kind d) FExtra = VExtra (mkMap [] true)) by (destruct (d_kind d); reflexivity). rewrite Ev, fold_extra in Fw. injection Fw as <-.
          unfold field_segs in *. rewrite getf_extra in Hfs. rewrite Gw.
          assert (Ek : map (fun e => KStr (value (fst e))) (filter (aims d0 FExtra) l) = extra_keys d /\
                       Forall (fun e => fst e = str_node (value (fst e))) (filter (aims d0 FExtra) l)).
          { destruct Rd as [_ Rd]. unfold extra_keys. clear -Hfs Rd. revert Hfs Rd. generalize (filter (aims d0 FExtra) l) (ents (d_extra d)). intros lf es. revert lf.
            induction es as [|[a g] r IH]; intros lf Hfs Rd; inversion Hfs as [|x p0 y z [P1 P2] Wf']; subst; [split; constructor|].
            destruct (Rd a g (or_introl eq_refl)) as [[s ->] _]. destruct (IH z Wf' (fun a g H => Rd a g (or_intror H))) as [I1 I2].
            destruct p0 as [pk pv]. cbn in P1. injection P1 as <-. split; [cbn; f_equal; exact I1|constructor; [reflexivity|exact I2]]. }
          destruct Ek as [Ek Eq]. assert (Nd : NoDup (map (fun e => value (fst e)) (filter (aims d0 FExtra) l))).
          { apply apart_strings. rewrite map_map, Ek. destruct Ht as [_ [_ [Ha _]]]. exact Ha. }
          rewrite put_extra_fresh by exact Nd. cbn [ents]. clear -Eq. induction Eq as [|e r E1 _ IH]; cbn; constructor; [|exact IH].
          split; [cbn; congruence|reflexivity]. }
        destruct (field_dec f FAnns) as [->|N3].
        { destruct v; cbn in Sv; try (destruct (d_kind d); discriminate Sv). unfold field_segs in Hfs. rewrite G, (Hna m G) in Hfs. apply wrote_nil in Hfs. rewrite Hfs in Fw |- *.
          cbn in Fw. injection Fw as <-. unfold field_segs. rewrite Gw. destruct (d_kind d); constructor. }
        destruct (Hseg f v G N1 N2 N3) as [H1 H2]. rewrite H1 in Hfs. rewrite (H2 w Sw Gw).
        destruct (written to_yaml (d_kind d) f v) as [r|] eqn:Ew; cbn [opt_seg] in Hfs.
        - apply wrote_one in Hfs as [bv [-> Hfs]]. rewrite Hfs in Fw |- *.
          cbn [fold_res] in Fw. unfold stepper in Fw. cbn [fst snd] in Fw. apply bind_ok in Fw as [w' [Fw E']]. injection E' as ->.
          rewrite (written_again (fun t => exists n', node_size n' < node_size n /\ hat n' = Ok t) (d_kind d) f v (str_node (written_key f)) bv w); try assumption.
          + constructor; [split; reflexivity|constructor].
          + apply (hat_read n d Hn). exact G.
          + intros x ->. eapply Hfl. exact G.
          + intros l0 x ->. assert (f = FEnum) by (destruct f; cbn in Sv; destruct (d_kind d); discriminate Sv || reflexivity). subst f. eapply Hen. exact G.
          + intros e ->. assert (f = FExample) by (destruct f; cbn in Sv; destruct (d_kind d); discriminate Sv || reflexivity). subst f. apply Hex. exact G.
          + intros m s e ->. assert (f = FExamples) by (destruct f; cbn in Sv; destruct (d_kind d); discriminate Sv || reflexivity). subst f. eapply Hexs. exact G.
          + intros t ->. assert (f = FItems) by (destruct f; cbn in Sv; destruct (d_kind d); discriminate Sv || reflexivity). subst f.
            destruct (hat_read n d Hn _ _ G) as [nt [_ Ht']]. exact (IHit t G nt Ht').
          + intros m s t -> Hi. assert (f = FProps) by (destruct f; cbn in Sv; destruct (d_kind d); discriminate Sv || reflexivity). subst f.
            destruct (hat_read n d Hn _ _ G) as [_ [_ Rd]]. destruct (Rd s t Hi) as [[nt [_ Ht']] _]. exact (IHpr m s t G Hi nt Ht').
        - apply wrote_nil in Hfs. rewrite Hfs in Fw |- *. cbn in Fw. injection Fw as <-.
          destruct (default_value (d_kind d) f) eqn:Ed; try (rewrite Du; constructor); constructor. }
      assert (Kn : d_kind d' = d_kind d) by congruence.
      assert (Wd : Forall2 wrote (flat_map (field_segs to_yaml d') (write_order (d_kind d'))) l).
      { rewrite Kn. pose proof (flat_wrote _ _ _ Hw) as X. rewrite <- El2 in X. exact X. }
      assert (Ht' : tidy d').
      { apply (read_tidy_apart _ _ R0). intros s Hi _. unfold ann_keys_of in Hi. destruct (getf FAnns d') as [v|] eqn:G; [|destruct Hi].
        destruct v; try destruct Hi. pose proof (in_write_order d' FAnns _ (hat_shaped _ _ R0) G) as Io. rewrite Kn in Io. specialize (Hfs FAnns Io). specialize (Hw FAnns Io).
        assert (Ea : field_segs to_yaml d FAnns = []).
        { unfold field_segs. destruct (getf FAnns d) as [v|] eqn:Gd; [|reflexivity]. pose proof (get_spec_sort d _ _ Hs Gd) as Sv.
          destruct v; cbn in Sv; try (destruct (d_kind d); discriminate Sv). rewrite (Hna _ eq_refl). reflexivity. }
        rewrite Ea in Hfs. apply wrote_nil in Hfs. rewrite Hfs in Hw. unfold field_segs in Hw. rewrite G in Hw. destruct (ents m); [destruct Hi|inversion Hw]. }
      rewrite written_pairs by exact Ht'.
      assert (Es' : is_short (segs to_yaml d') = false).
      { rewrite is_short_len in Es |- *. rewrite segs_fields in Es by exact Hs. rewrite segs_fields by exact (hat_shaped _ _ R0).
        rewrite (wrote_length _ _ Wd). rewrite (wrote_length _ _ W) in Es. exact Es. }
      rewrite Es'. apply out_to_yaml_ok. eauto.
  Qed.
End Idem.
