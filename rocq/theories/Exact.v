(** C69: the conditions of C32 are exact.  A type definition that was read and comes back from what it is written as is [settled]. *)
From Coq Require Import SpecFloat.
From Verif Require Import Base Num OMap OMapSpec Keys Yaml Values Assign Formats Meta Out Xml Example DataType Marshal
  AssignProofs TypeFacts Fields FieldProofs FacetSpec FacetProofs DocProofs OrderProofs PathProofs TypeWrite Segs ExProofs Same ExRound TypeSegs WriteSpec WriteProofs
  ReadInv RoundSpec RoundProofs WasRead Lost Writable Stable Lens IdemSpec Idem.

(** ** Lists *)

Lemma filter_length_le {A} (p : A -> bool) l : (List.length (filter p l) <= List.length l)%nat.
Proof. induction l as [|a l IH]; cbn; [lia|]. destruct (p a); cbn; lia. Qed.

Lemma filter_length_all {A} (p : A -> bool) l : List.length (filter p l) = List.length l -> filter p l = l.
Proof.
  induction l as [|a l IH]; cbn; [reflexivity|]. intros H. pose proof (filter_length_le p l). destruct (p a); cbn in H; [|lia].
  f_equal. apply IH. lia.
Qed.

Lemma sput_length {K V} keq k (v : V) (l : list (K * V)) : (List.length (sput keq k v l) <= S (List.length l))%nat.
Proof. unfold sput, sdelete. rewrite app_length. cbn. pose proof (filter_length_le (other keq k) l). lia. Qed.

Lemma kputs_length {V} (kvs : list (gkey * V)) : forall m, (List.length (ents (kputs kvs m)) <= List.length (ents m) + List.length kvs)%nat.
Proof.
  induction kvs as [|[k v] kvs IH]; intros m; [cbn; lia|]. change (kputs ((k, v) :: kvs) m) with (kputs kvs (kput k v m)).
  pose proof (IH (kput k v m)) as L. change (ents (kput k v m)) with (sput gkey_eqb k v (ents m)) in L.
  pose proof (sput_length gkey_eqb k v (ents m)). cbn [List.length]. lia.
Qed.

(** As many entries as were put: nothing was replaced. *)
Lemma kputs_all {V} (kvs : list (gkey * V)) : forall m, List.length (ents (kputs kvs m)) = (List.length (ents m) + List.length kvs)%nat ->
  ents (kputs kvs m) = ents m ++ kvs.
Proof.
  induction kvs as [|[k v] kvs IH]; intros m H; [cbn; rewrite app_nil_r; reflexivity|].
  change (kputs ((k, v) :: kvs) m) with (kputs kvs (kput k v m)) in *. cbn [List.length] in H.
  pose proof (kputs_length kvs (kput k v m)) as L. change (ents (kput k v m)) with (sput gkey_eqb k v (ents m)) in L. pose proof (sput_length gkey_eqb k v (ents m)) as L1.
  assert (E : List.length (sput gkey_eqb k v (ents m)) = S (List.length (ents m))) by lia.
  assert (D : sput gkey_eqb k v (ents m) = ents m ++ [(k, v)]).
  { unfold sput, sdelete in *. rewrite app_length in E. cbn in E. rewrite filter_length_all by lia. reflexivity. }
  rewrite IH; change (ents (kput k v m)) with (sput gkey_eqb k v (ents m)); [rewrite D, <- app_assoc; reflexivity|lia].
Qed.

Lemma Forall2_size {A B} (R : A -> B -> Prop) l l' : Forall2 R l l' -> List.length l = List.length l'.
Proof. intros H. induction H; cbn; congruence. Qed.

Lemma last_of_none {A} (p : A -> bool) l : (forall a, In a l -> p a = false) -> last_of p l = None.
Proof.
  intros H. unfold last_of. destruct (find p (rev l)) as [a|] eqn:E; [|reflexivity]. apply find_some in E as [E1 E2].
  apply in_rev in E1. rewrite H in E2 by exact E1. discriminate E2.
Qed.

Lemma last_of_app {A} (p : A -> bool) l l' : last_of p (l ++ l') = match last_of p l' with Some a => Some a | None => last_of p l end.
Proof.
  unfold last_of. rewrite rev_app_distr. induction (rev l') as [|a r IH]; [reflexivity|]. cbn. destruct (p a); [reflexivity|exact IH].
Qed.

Lemma puts_keys l : forall o x, In x (puts_all l o) -> In x l \/ In x o.
Proof.
  induction l as [|e l IH]; intros o x H; [right; exact H|]. cbn in H. apply IH in H as [H|H]; [left; right; exact H|].
  unfold oput, sput, sdelete in H. apply in_app_or in H as [H|[<-|[]]].
  - apply filter_In in H as [H _]. right. exact H.
  - left. left. destruct e; reflexivity.
Qed.

Lemma puts_has s l : forall o, shas gkey_eqb (KStr s) o = true \/ In (KStr s) (map fst l) -> shas gkey_eqb (KStr s) (puts_all l o) = true.
Proof.
  induction l as [|[k r] l IH]; intros o H; [destruct H as [H|[]]; exact H|]. cbn. apply IH.
  assert (P : shas gkey_eqb (KStr s) o = true \/ k = KStr s -> shas gkey_eqb (KStr s) (oput k r o) = true).
  { clear. unfold shas, oput, sput, sdelete. rewrite existsb_app. intros H. destruct (gkey_eqb k (KStr s)) eqn:E.
    - cbn. rewrite E. rewrite orb_true_r. reflexivity.
    - destruct H as [H| ->]; [|cbn in E; rewrite String.eqb_refl in E; discriminate E]. apply orb_true_iff. left.
      apply existsb_exists in H as [[a q] [Hi Ha]]. apply existsb_exists. exists (a, q). split; [|exact Ha]. apply filter_In. split; [exact Hi|].
      cbn in Ha. destruct a; try discriminate Ha. cbn in Ha. apply String.eqb_eq in Ha. subst. unfold other. cbn [fst].
      destruct k; cbn in *; try reflexivity. rewrite String.eqb_sym, E. reflexivity. }
  cbn in H. destruct H as [H|[->|H]]; auto.
Qed.

Section Exact.
  Context {F : FloatIO}.

  (** ** Examples *)

  Lemma ex_exact k n e m : read_ex k n = Ok e -> ex_to_yaml e = Ok m -> read_ex k m = Ok e -> settled_ex e.
  Proof.
    intros H W R. destruct (ex_expand e) eqn:Hx.
    2:{ exfalso. assert (N : ~ more_than_value e) by (intros C; apply expand_iff in C; congruence).
        rewrite (ex_short_broken k e m N W) in R. discriminate R. }
    pose proof (read_ex_read k n e H) as [R1 [[A1 [A2 A3]] [R3 [R4 R5]]]].
    assert (Ha : apart (map fst (ex_segs e)) = true).
    { apply ex_keys_apart; [exact A2| |exact R4|].
      - intros s Hs. apply in_map_iff in Hs as [[s' a] [<- Hi]]. exact (proj1 (A3 _ _ Hi)).
      - intros s Hs. apply (ex_extra_names k n e s H) in Hs. tauto. }
    pose proof W as W0. unfold ex_to_yaml in W. rewrite ex_marshal_segs in W by exact Hx. rewrite puts_fresh_nil in W by exact Ha.
    apply out_to_yaml_ok in W as [l [-> W]]. apply ex_expanded_iff in R as [Acc [_ [_ [_ [Sv [_ [kvs [Q1 Q2]]]]]]]].
    rewrite Forall_forall in Acc.
    assert (Hann : ents (ex_anns e) = []).
    { destruct (ents (ex_anns e)) as [|[s a] r] eqn:Ea; [reflexivity|]. exfalso.
      destruct (A3 s a (or_introl eq_refl)) as [P [Oa _]].
      destruct (wrote_in _ _ (KStr s, untyped_to_yaml a) W) as [[pk pv] [Hp [K1 K2]]].
      { unfold ex_segs. rewrite Ea. rewrite !in_app_iff. cbn. tauto. }
      cbn in K1, K2. injection K1 as <-. destruct (ordered_seq _ _ _ _ Oa K2) as [q ->].
      destruct (Acc _ Hp) as [_ [C _]]. cbn [fst snd] in C.
      destruct C as [b C]; [|discriminate C]. unfold is_annotation_key. cbn. destruct s; [discriminate P|exact P]. }
    unfold ex_segs in W. rewrite Hann in W. cbn [all_seg map app] in W.
    apply Forall2_app_inv_l in W as [l1 [r1 [L1 [W E1]]]]. apply Forall2_app_inv_l in W as [l2 [r2 [L2 [W E2]]]].
    apply Forall2_app_inv_l in W as [l3 [r3 [L3 [W E3]]]]. apply Forall2_app_inv_l in W as [l4 [l6 [L4 [L6 E4]]]]. subst l r1 r2 r3.
    assert (X1 : forall p, In p l1 -> fst p = str_node "displayName").
    { apply wrote_opt in L1. destruct (ex_display e); cbn in L1; [destruct L1 as [q [_ ->]]; intros p [<-|[]]; reflexivity|subst l1; intros p []]. }
    assert (X2 : forall p, In p l2 -> fst p = str_node "description").
    { apply wrote_opt in L2. destruct (ex_descr e); cbn in L2; [destruct L2 as [q [_ ->]]; intros p [<-|[]]; reflexivity|subst l2; intros p []]. }
    assert (X3 : forall p, In p l3 -> fst p = str_node "value").
    { apply wrote_opt in L3. destruct (ex_value e); cbn in L3; [destruct L3 as [q [_ ->]]; intros p [<-|[]]; reflexivity|subst l3; intros p []]. }
    assert (X4 : forall p, In p l4 -> fst p = str_node "strict").
    { apply wrote_if in L4. destruct (negb _); cbn in L4; [destruct L4 as [q [_ ->]]; intros p [<-|[]]; reflexivity|subst l4; intros p []]. }
    assert (Fx : forall q s, (forall p, In p q -> fst p = str_node s) -> In s ex_names -> filter ex_extra_key q = []).
    { intros q s Hq Hs. apply filter_none. intros p Hp. unfold ex_extra_key. rewrite (Hq p Hp). cbn [is_string node_tag str_node value andb].
      assert (E : existsb (String.eqb s) ex_names = true) by (apply existsb_exists; exists s; split; [exact Hs|apply String.eqb_refl]).
      rewrite E. apply andb_false_r. }
    rewrite !filter_app, (Fx l1 _ X1), (Fx l2 _ X2), (Fx l3 _ X3), (Fx l4 _ X4) in Q1 by (cbn; tauto). cbn [app] in Q1.
    assert (Len6 : List.length l6 = List.length (ents (ex_extra e))).
    { apply Forall2_size in L6. rewrite <- L6. unfold all_seg. apply map_length. }
    pose proof (Forall2_size _ _ _ Q1) as Lk. pose proof (kputs_length kvs (mkMap [] false)) as Lp. rewrite <- Q2 in Lp. cbn [ents List.length Nat.add] in Lp.
    pose proof (filter_length_le ex_extra_key l6) as Lf.
    rewrite (filter_length_all ex_extra_key l6) in Q1 by lia.
    assert (Ek : ents (ex_extra e) = kvs).
    { rewrite Q2. rewrite kputs_all; [reflexivity|]. rewrite <- Q2. cbn. lia. }
    assert (Hk : forall a g, In (a, g) (ents (ex_extra e)) -> exists p, key_node a = Ok p /\ to_scalar p = Ok a).
    { rewrite Ek in L6 |- *. clear -L6 Q1. revert L6. induction Q1 as [|p [a g] l6 kvs [S1 _] _ IH]; intros L6 a' g' Hi; [destruct Hi|].
      cbn in L6. inversion L6 as [|x y xs ys [K1 K2] K3]; subst. cbn in K1, S1. destruct Hi as [Hi|Hi]; [injection Hi as <- <-; eauto|eapply IH; eassumption]. }
    split; [apply expand_iff; exact Hx|]. split; [exact Hann|]. split.
    - intros x Ex. rewrite Ex in L3, Sv. apply wrote_opt in L3. cbn in L3. destruct L3 as [q [Eq ->]]. injection Eq as <-.
      unfold said in Sv. rewrite !last_of_app in Sv.
      assert (N : forall q s, (forall p, In p q -> fst p = str_node s) -> s <> "value" -> last_of (named_key "value") q = None).
      { intros q s Hq Hs. apply last_of_none. intros p Hp. unfold named_key. rewrite (Hq p Hp). cbn. apply String.eqb_neq. exact Hs. }
      assert (N6 : last_of (named_key "value") l6 = None).
      { apply last_of_none. intros p Hp. destruct (named_key "value" p) eqn:E; [|reflexivity].
        assert (Lall : filter ex_extra_key l6 = l6) by (apply filter_length_all; lia). rewrite <- Lall in Hp. apply filter_In in Hp as [_ Hp].
        unfold ex_extra_key in Hp. unfold named_key in E. apply andb_true_iff in E as [E0 E]. apply String.eqb_eq in E. rewrite E0, E in Hp.
        cbn in Hp. rewrite andb_false_r in Hp. discriminate Hp. }
      rewrite N6, (N l4 "strict" X4) in Sv by discriminate. cbn in Sv. destruct Sv as [v [Sv Ev]]. injection Ev as <-.
      unfold exact_float. destruct k; cbn in Sv; try (destruct Sv as [? [Q Ev]]; discriminate Ev || (injection Ev as <-; exact Q)); try discriminate Sv; try (destruct Sv; fail).
      all: try (destruct Sv as [? [? [_ Ev]]]; discriminate Ev).
    - intros x v Hi. destruct (Hk _ _ Hi) as [p [K1 K2]]. cbn in K1. injection K1 as K1. rewrite K1. exact K2.
  Qed.

  (** ** Type definitions *)

  (** What is written for a facet is what is read of it. *)
  Lemma once n d n' f r : hat n = Ok d -> tidy d -> to_yaml d = Ok n' -> hat n' = Ok d -> In f (facets_of (d_kind d)) ->
    field_segs to_yaml d f = [(KStr (written_key f), r)] ->
    exists v w, r = Ok v /\ declared reads (d_kind d) f v (default_value (d_kind d) f) w /\ getf f d = Some w.
  Proof.
    intros H Ht W R Hf Sg.
    assert (Fk : facet_key f = Some (written_key f) /\ f <> FType).
    { destruct f; (split; [|discriminate]) || idtac; try reflexivity; exfalso; destruct (d_kind d); cbn in Hf; intuition discriminate. }
    destruct Fk as [Fk Nt].
    assert (Hw : In f (write_order (d_kind d))).
    { destruct (getf f d) as [v|] eqn:G; [eapply in_write_order; [exact (proj1 Ht)|exact G]|]. unfold field_segs in Sg. rewrite G in Sg. discriminate Sg. }
    destruct (written_in d n' f (KStr (written_key f)) r Ht W Nt) as [l [k [v [-> _]]]].
    { rewrite Sg. left. reflexivity. } { exact Hw. }
    destruct (written_order d l Ht W) as [_ A]. pose proof (written_pairs d Ht) as P. rewrite W in P.
    destruct (is_short (segs to_yaml d)).
    { unfold type_node in P. destruct (b_kind (d_base d)); discriminate P. }
    symmetry in P. apply out_to_yaml_ok in P as [l' [E P]]. injection E as <-.
    assert (X : In (KStr (written_key f), r) (flat_map (field_segs to_yaml d) (write_order (d_kind d)))).
    { apply in_flat_map. exists f. split; [exact Hw|]. rewrite Sg. left. reflexivity. }
    assert (Keys : map fst (flat_map (field_segs to_yaml d) (write_order (d_kind d))) = flat_map (field_keys d) (write_order (d_kind d))).
    { rewrite <- segs_fields by exact (proj1 Ht). apply segs_keys; apply Ht. }
    rewrite <- Keys in A.
    assert (Str : forall a q, In (a, q) (flat_map (field_segs to_yaml d) (write_order (d_kind d))) -> exists s, a = KStr s).
    { intros a q Hi. assert (Hk : In a (flat_map (field_keys d) (write_order (d_kind d)))).
      { rewrite <- Keys. apply in_map_iff. exists (a, q). auto. }
      apply in_flat_map in Hk as [g [_ Hk]]. exact (string_keys n d g a H Hk). }
    revert X P A Str Fk. clear Keys Sg Nt Hw k v. generalize (flat_map (field_segs to_yaml d) (write_order (d_kind d))) as o. generalize (written_key f) as key.
    intros key o X P A Str Fk. apply in_split in X as [o1 [o2 ->]]. apply Forall2_app_inv_l in P as [l1 [l2 [P1 [P2 ->]]]].
    inversion P2 as [|e p o' l3 Pe P3]; subst. destruct p as [k0 v0]. destruct Pe as [K1 K2]. cbn in K1, K2. injection K1 as <-. subst r.
    rewrite map_app in A. apply apart_app in A as [_ [A2 A3]]. cbn [map fst] in A2, A3.
    change ((KStr key :: map fst o2)) with ([KStr key] ++ map fst o2) in A2. apply apart_app in A2 as [_ [_ A2]].
    assert (M : forall o l, (forall a r, In (a, r) o -> exists s, a = KStr s) -> Forall2 wrote o l ->
      (forall a, In a (map fst o) -> gkey_eqb a (KStr key) = false) -> ~ mentions key l).
    { clear. intros o l Str H N [e [He Ev]]. induction H as [|[a r] p o l [W1 W2] H IH]; [destruct He|].
      destruct He as [->|He].
      - cbn in W1. destruct (Str a r (or_introl eq_refl)) as [s ->]. cbn in W1. injection W1 as W1. rewrite <- W1 in Ev. cbn in Ev. subst s.
        specialize (N (KStr key) (or_introl eq_refl)). cbn in N. rewrite String.eqb_refl in N. discriminate N.
      - apply IH; [|intros; apply N; right; assumption|exact He]. intros a' r' Hi. apply (Str a' r'). right. exact Hi. }
    destruct (facet_once TMap l1 (str_node key) v0 l3 d f ltac:(discriminate) R Hf Fk) as [w [D Gw]].
    - apply (M o1); [|exact P1|].
      + intros a r Hi. apply (Str a r). apply in_or_app. left. exact Hi.
      + intros a Ha. apply A3; [exact Ha|left; reflexivity].
    - apply (M o2); [|exact P3|].
      + intros a r Hi. apply (Str a r). apply in_or_app. right. right. exact Hi.
      + intros a Ha. assert (E : gkey_eqb (KStr key) a = false) by (apply A2; [left; reflexivity|exact Ha]).
        destruct a; try reflexivity. cbn in E |- *. rewrite String.eqb_sym. exact E.
    - exists v0, w. auto.
  Qed.

  Lemma in_wrote o l p : Forall2 wrote o l -> In p l -> exists e, In e o /\ wrote e p.
  Proof.
    intros H. induction H as [|x y o l W H IH]; [intros []|]. intros [<-|Hi]; [exists x; split; [left; reflexivity|exact W]|].
    destruct (IH Hi) as [e [P1 P2]]. exists e. split; [right; exact P1|exact P2].
  Qed.

  Lemma kinds_out n d : hat n = Ok d -> b_kind (d_base d) <> TyInclude \/ (exists b, d = TBase b).
  Proof. intros H. destruct d as [b|b x fs c s]; [right; eauto|left]. apply (shaped_cases b x fs c s (hat_shaped _ _ H)). Qed.

  (** Extra facets whose names begin with a parenthesis, or are empty, do not come back. *)
  Lemma extras_named n d n' : hat n = Ok d -> to_yaml d = Ok n' -> hat n' = Ok d -> d_kind d <> TyNil -> d_kind d <> TyInclude ->
    forall s, In (KStr s) (extra_keys d) -> s <> "" /\ starts_paren s = false.
  Proof.
    intros H W R Kn Ki s Hs. pose proof (hat_shaped n d H) as Sh. pose proof (hat_read n d H) as Rd.
    rewrite to_yaml_eq in W. unfold to_yaml_body, short_or_full in W. rewrite type_marshal_segs in W by exact (kinds_out n d H).
    assert (Keys : map fst (segs to_yaml d) = flat_map (field_keys d) (write_order (d_kind d))).
    { apply segs_keys; [exact Sh|]. intros z G. specialize (Rd _ _ G). cbn in Rd. lia. }
    assert (Ks : In (KStr s) (map fst (segs to_yaml d))).
    { rewrite Keys. apply in_flat_map. exists FExtra. split; [eapply in_write_order; [exact Sh|apply getf_extra]|].
      unfold field_keys. rewrite getf_extra. exact Hs. }
    destruct (is_short (puts_all (segs to_yaml d) [])) eqn:Es.
    { exfalso. assert (A1 := puts_has s (segs to_yaml d) [] (or_intror Ks)).
      unfold is_short in Es. apply andb_true_iff in Es as [E1 E2]. apply Nat.eqb_eq in E1.
      destruct (puts_all (segs to_yaml d) []) as [|[a r] [|b q]]; try discriminate E1. cbn in A1, E2.
      rewrite orb_false_r in A1, E2. destruct a; try discriminate A1. cbn in A1, E2. apply String.eqb_eq in A1, E2. subst.
      apply (extra_unknown n d _ H Hs). destruct (d_kind d); cbn; tauto. }
    apply out_to_yaml_ok in W as [l [-> W]].
    pose proof (extras_keys TMap l d ltac:(discriminate) R) as [_ X]. destruct (X _ Hs) as [[k v] [Hi [E Hx]]]. cbn [fst] in E, Hx. injection E as ->.
    assert (Kk : k = str_node (value k)).
    { destruct (in_wrote _ _ _ W Hi) as [[a r] [Ha [K1 _]]]. cbn in K1. apply puts_keys in Ha as [Ha|[]].
      apply (in_map fst) in Ha. rewrite Keys in Ha. apply in_flat_map in Ha as [g [_ Ha]]. apply (string_keys n d g _ H) in Ha as [u Hu]. cbn in Hu. subst a. cbn in K1. injection K1 as <-. reflexivity. }
    rewrite Kk in Hi. rewrite Kk in Hx. pose proof (extra_unknown n d _ H Hs) as Hu. clear Kk X Hs Ks. revert Hi Hx Hu. generalize (value k) as u. intros u Hi Hx Hu.
    pose proof R as R0. apply hat_map in R as [d0 [R1 R2]]; [|discriminate].
    assert (S0 : shaped d0) by (apply sift_start in R1 as [k0 [s0 ->]]; apply shaped_set_schema, shaped_new).
    pose proof (fold_kind _ _ _ _ R2) as [K0 _].
    destruct (fold_steps l d0 d _ R2 Hi) as [f [old [w [A _]]]]. cbn [fst] in A.
    rewrite target_unknown in A; [|exact S0|rewrite <- K0; exact Hu].
    assert (Hd : exists b x fs c p, d0 = TExt b x fs c p).
    { destruct d0 as [b|b x fs c p]; [|eauto 6]. exfalso. unfold shaped in S0. unfold d_kind in *. cbn [d_base] in *. destruct (b_kind b); try discriminate S0; congruence. }
    destruct Hd as [b [x [fs [c [p ->]]]]]. unfold is_annotation_key in A. cbn [is_string str_node node_tag value andb] in A.
    change (match u with EmptyString => false | String c _ => Ascii.eqb c "(" end) with (starts_paren u) in A.
    unfold extra_key in Hx. apply andb_true_iff in Hx as [_ Hx]. split; [intros ->; discriminate A|].
    destruct (d_kind d); try congruence; apply negb_true_iff in Hx; unfold is_annotation_key in Hx; cbn [is_string str_node node_tag value andb] in Hx; exact Hx.
  Qed.

  Lemma back_tidy n d n' : hat n = Ok d -> to_yaml d = Ok n' -> hat n' = Ok d -> tidy d.
  Proof.
    intros H W R. apply (read_tidy_apart n d H). intros s Ha Hx. unfold ann_keys_of in Ha.
    destruct (getf FAnns d) as [v|] eqn:G; [|destruct Ha]. pose proof (hat_read n d H _ _ G) as Rd. destruct v; try destruct Ha.
    destruct Rd as [_ [_ Rd]]. apply in_map_iff in Ha as [[s' a] [Es Hi]]. cbn in Es. subst s'. destruct (Rd s a Hi) as [P _].
    assert (K : d_kind d <> TyNil /\ d_kind d <> TyInclude).
    { destruct d as [b|b x fs c p]; [discriminate G|]. destruct (shaped_cases b x fs c p (hat_shaped _ _ H)) as [N1 [N2 _]]. auto. }
    destruct (extras_named n d n' H W R (proj1 K) (proj2 K) s Hx) as [_ Q]. congruence.
  Qed.

  Lemma map_back {V} (vn : V -> res node) (rd : node -> V -> Prop) (m : amap string V) t l kvs :
    oord m = false -> NoDup (map fst (ents m)) -> map_to_yaml skey_node vn m = Ok (Map t l) ->
    Forall2 (fun e kv => denotes_string (fst e) (fst kv) /\ rd (snd e) (snd kv)) l kvs -> m = mputs kvs (mkMap [] false) ->
    forall s v, In (s, v) (ents m) -> exists n', vn v = Ok n' /\ rd n' v.
  Proof.
    intros O N W H E. unfold map_to_yaml in W. rewrite O in W. apply bind_ok in W as [l' [W W']]. injection W' as <- <-. apply map_res_ok in W.
    assert (K : map fst kvs = map fst (ents m)).
    { clear -W H. revert kvs H. induction W as [|[s v] p es ps Wp W IH]; intros kvs H; inversion H as [|x [s' v'] y z [D _] H']; subst; [reflexivity|].
      cbn. unfold entry_node in Wp. cbn in Wp. apply bind_ok in Wp as [nv [_ Wp]]. injection Wp as <-. destruct D as [_ D]. cbn in D. subst s'.
      f_equal. apply IH. exact H'. }
    assert (Ek : ents m = kvs).
    { rewrite E. rewrite mputs_fresh; [reflexivity|]. cbn [app]. rewrite K. exact N. }
    rewrite Ek in W |- *. clear -W H. intros s v Hi. revert H. induction W as [|[s1 v1] p es ps Wp W IH]; intros H; [destruct Hi|].
    inversion H as [|x y z q [_ D] H']; subst. destruct Hi as [E|Hi]; [|exact (IH Hi H')]. injection E as -> ->.
    unfold entry_node in Wp. cbn in Wp. apply bind_ok in Wp as [nv [Wv Wp]]. injection Wp as <-. cbn in D. eauto.
  Qed.

  Lemma int_denoted z y : denotes_int (int_node z) y -> y = z /\ (z <= 2 ^ 63 - 1)%Z.
  Proof. intros [[s [E D]] B]. injection E as <-. rewrite decimal_value_print in D. injection D as <-. lia. Qed.

  Lemma facet_of_value d f v : shaped d -> getf f d = Some v -> f <> FType -> f <> FExtra -> f <> FAnns -> f <> FDefault -> In f (facets_of (d_kind d)).
  Proof.
    intros S G N1 N2 N3 N4. pose proof (in_write_order d f v S G) as Hw. destruct d as [b|b x fs c p].
    - destruct f; try discriminate G; congruence.
    - destruct (shaped_cases b x fs c p S) as [K1 [K2 _]]. unfold d_kind in *. cbn [d_base] in *. destruct (b_kind b); try congruence;
        destruct f; try congruence; cbn in Hw |- *; intuition discriminate.
  Qed.

  (** C69 *)
  Lemma exact n : forall d n', hat n = Ok d -> to_yaml d = Ok n' -> hat n' = Ok d -> settled d.
  Proof.
    induction n as [n IH] using node_strong_ind. intros d n' H W R. pose proof (back_tidy n d n' H W R) as Ht.
    pose proof (hat_shaped n d H) as Sh. pose proof (hat_read n d H) as Rd.
    assert (On : forall f v r, getf f d = Some v -> f <> FType -> f <> FExtra -> f <> FAnns -> f <> FDefault ->
      written to_yaml (d_kind d) f v = Some r -> exists m, r = Ok m /\ declared reads (d_kind d) f m (default_value (d_kind d) f) v).
    { intros f v r G N1 N2 N3 N4 Wr. destruct (once n d n' f r H Ht W R) as [m [w [E [D Gw]]]].
      - eapply facet_of_value; eassumption.
      - pose proof (get_spec_sort d f v Sh G) as So. unfold field_segs. rewrite G.
        destruct v; rewrite ?Wr; try reflexivity; exfalso; destruct f; cbn in So; try congruence; destruct (d_kind d); discriminate So.
      - rewrite G in Gw. injection Gw as <-. eauto. }
    assert (Inc : d_kind d = TyInclude -> extra_keys d = []).
    { intros K. rewrite written_pairs in W by exact Ht. destruct (is_short (segs to_yaml d)) eqn:Es.
      - pose proof (short_only _ d Ht Es FExtra _ ltac:(discriminate) (getf_extra d)) as D. cbn in D. unfold empty in D. unfold extra_keys.
        destruct (ents (d_extra d)); [reflexivity|discriminate D].
      - exfalso. apply out_to_yaml_ok in W as [l [-> W]].
        assert (Y : to_yaml d = Ok (Map TMap l)).
        { rewrite written_pairs, Es by exact Ht. apply out_to_yaml_ok. eauto. }
        apply hat_map in R as [d0 [R1 R2]]; [|discriminate].
        destruct (type_pair d l Ht Y) as [p [q [El Hp]]].
        destruct (fold_steps l d0 d (str_node "type", type_node (d_base d)) R2) as [f [old [v [A B]]]].
        { rewrite El. apply in_or_app. right. left. reflexivity. }
        pose proof (aims_type d0 (str_node "type", type_node (d_base d))) as C. unfold aims in C. rewrite A in C. apply field_eqb_eq in C. subst f.
        cbn [step fst snd] in B. unfold type_node in B. unfold d_kind in K. rewrite K in B. discriminate B. }
    constructor.
    - intros m G. destruct (ents m) as [|e l] eqn:E; [reflexivity|exfalso].
      rewrite (anns_lost n d m n' d H Ht G ltac:(rewrite E; discriminate) W R) in G. discriminate G.
    - intros m G. destruct (ents m) as [|e l] eqn:E; [reflexivity|exfalso].
      rewrite (facets_lost n d m n' d H Ht G ltac:(rewrite E; discriminate) W R) in G. discriminate G.
    - intros x G. destruct (xml_lost n d x n' d H Ht G W R) as [X|X]; rewrite G in X; congruence.
    - intros e G. destruct (On _ _ _ G ltac:(discriminate) ltac:(discriminate) ltac:(discriminate) ltac:(discriminate) eq_refl) as [m [E [_ [e' [Re Ee]]]]].
      injection Ee as <-. pose proof (Rd _ _ G) as [_ [m0 R0]]. eapply ex_exact; eassumption.
    - intros m s e G Hi. pose proof (Rd _ _ G) as [O [N Q]].
      destruct (On _ _ (examples_to_yaml m) G ltac:(discriminate) ltac:(discriminate) ltac:(discriminate) ltac:(discriminate)) as [nd [E D]].
      { cbn. destruct m as [[|a l] o]; [destruct Hi|reflexivity]. }
      destruct D as [t [l [kvs [m0 [-> [E0 [D Em]]]]]]]. cbn in E0. injection E0 as <-. injection Em as Em.
      destruct (map_back ex_to_yaml (fun n e => read_ex (d_kind d) n = Ok e) m t l kvs O N E D Em s e Hi) as [m1 [W1 R1]].
      destruct (Q s e Hi) as [m2 R2]. eapply ex_exact; eassumption.
    - intros f z G. assert (Nf : f <> FType /\ f <> FExtra /\ f <> FAnns /\ f <> FDefault).
      { destruct G as [G|G]; apply (get_spec_sort d f _ Sh) in G; repeat split; intros ->; discriminate G. }
      destruct Nf as [N1 [N2 [N3 N4]]]. destruct G as [G|G].
      + assert (C : (z <= 2147483647)%Z \/ written to_yaml (d_kind d) f (VInt z) = Some (Ok (int_node z))).
        { pose proof (get_spec_sort d f _ Sh G) as So. unfold written, is_default.
          destruct f; try discriminate So; destruct (d_kind d); try discriminate So; cbn -[Z.eqb Z.ltb];
            match goal with |- context [if ?b then _ else _] => destruct b eqn:Eb; [left|right; reflexivity] end; rewrite ?negb_true_iff, ?Z.eqb_eq, ?Z.ltb_ge in Eb; lia. }
        destruct C as [C|C]; [lia|]. destruct (On _ _ _ G N1 N2 N3 N4 C) as [m [E D]]. injection E as <-.
        pose proof (get_spec_sort d f _ Sh G) as So.
        destruct f; try discriminate So; try (destruct (d_kind d); discriminate So); cbn [declared] in D;
          destruct D as [y [y' [D _]]]; exact (proj2 (int_denoted _ _ D)).
      + destruct (On _ _ _ G N1 N2 N3 N4 eq_refl) as [m [E D]]. injection E as <-. pose proof (get_spec_sort d f _ Sh G) as So.
        destruct f; try discriminate So; cbn [declared] in D;
          try (destruct D as [y [y' [D _]]]; exact (proj2 (int_denoted _ _ D)));
          destruct (d_kind d); try discriminate So; destruct D as [y [D _]]; exact (proj2 (int_denoted _ _ D)).
    - intros f x G. assert (Nf : f <> FType /\ f <> FExtra /\ f <> FAnns /\ f <> FDefault).
      { apply (get_spec_sort d f _ Sh) in G; repeat split; intros ->; discriminate G. }
      destruct Nf as [N1 [N2 [N3 N4]]]. destruct (On _ _ _ G N1 N2 N3 N4 eq_refl) as [m [E D]]. injection E as <-. pose proof (get_spec_sort d f _ Sh G) as So.
      destruct f; try discriminate So; cbn [declared] in D; destruct (d_kind d); try discriminate So; destruct D as [y [D E]]; injection E as <-; exact D.
    - intros l x G Hi. destruct (On _ _ _ G ltac:(discriminate) ltac:(discriminate) ltac:(discriminate) ltac:(discriminate) eq_refl) as [m [E D]].
      cbn [declared] in D. destruct D as [t [ns [vs [o [-> [Eo [D Ev]]]]]]]. cbn in Eo. injection Eo as <-.
      assert (El : vs = l). { destruct vs; [discriminate Ev|]. injection Ev as Ev. symmetry. exact Ev. } subst vs.
      cbn in E. apply bind_ok in E as [ns' [E E']]. injection E' as <- <-. apply map_res_ok in E. clear -E D Hi.
      revert D. induction E as [|g nd l ns W E IHE]; intros D; [destruct Hi|]. inversion D as [|a b u v D1 D2]; subst. destruct Hi as [->|Hi]; [|exact (IHE Hi D2)].
      cbn in W. injection W as <-. unfold enum_value in D1. destruct (d_kind d); try (destruct D1 as [y [_ D1]]; discriminate D1); try discriminate D1.
      destruct D1 as [y [D1 E1]]. injection E1 as <-. exact D1.
    - intros K s Hs. destruct (d_kind d) eqn:Ek; try congruence; try (apply (extras_named n d n' H W R); [rewrite Ek; discriminate|rewrite Ek; discriminate|exact Hs]).
      rewrite (Inc eq_refl) in Hs. destruct Hs.
    - intros K. apply named_kind_of. pose proof (kind_after d n' d Ht W R) as Ka. destruct (d_kind d); congruence.
    - exact Inc.
    - intros t G. destruct (On _ _ _ G ltac:(discriminate) ltac:(discriminate) ltac:(discriminate) ltac:(discriminate) eq_refl) as [m [E [t' [Rt Et]]]].
      injection Et as <-. pose proof (Rd _ _ G) as [m0 [Sz R0]]. exact (IH m0 Sz t m R0 E Rt).
    - intros m s t G Hi. pose proof (Rd _ _ G) as [O [N Q]].
      destruct (On _ _ (types_to_yaml to_yaml m) G ltac:(discriminate) ltac:(discriminate) ltac:(discriminate) ltac:(discriminate)) as [nd [E D]].
      { cbn. destruct m as [[|a l] o]; [destruct Hi|reflexivity]. }
      destruct D as [tg [l [kvs [m0 [-> [E0 [D Em]]]]]]]. cbn in E0. injection E0 as <-. injection Em as Em.
      destruct (map_back to_yaml reads m tg l kvs O N E) with (s := s) (v := t) as [m1 [W1 R1]]; [|exact Em|exact Hi|].
      { eapply Forall2_impl; [|exact D]. cbn. tauto. }
      destruct (Q s t Hi) as [[m2 [Sz R2]] _]. exact (IH m2 Sz t m1 R2 W1 R1).
  Qed.

  (** What comes back, of the type definitions that were read. *)
  Lemma comes_back n d : hat n = Ok d -> ((exists n', to_yaml d = Ok n' /\ hat n' = Ok d) <-> settled d).
  Proof. intros H. split; [intros [n' [W R]]; exact (exact n d n' H W R)|exact (stable n d H)]. Qed.
End Exact.
