(** What is true of every type definition that was read. *)
From Coq Require Import SpecFloat.
From Verif Require Import Base Num OMap OMapSpec Keys Yaml Values Assign Formats Meta Out Xml Example DataType Marshal
  AssignProofs TypeFacts Fields FieldProofs FacetSpec FacetProofs DocProofs OrderProofs PathProofs TypeWrite Segs ExProofs Same ExRound TypeSegs WriteSpec WriteProofs.

Lemma sput_keys {V} k (v : V) l s : In s (map fst (sput String.eqb k v l)) -> s = k \/ In s (map fst l).
Proof.
  unfold sput, sdelete. rewrite map_app. intros H. apply in_app_or in H as [H|[H|[]]]; [right|left; symmetry; exact H].
  apply in_map_iff in H as [e [<- He]]. apply filter_In in He as [He _]. apply in_map. exact He.
Qed.

Lemma sput_nodup {V} k (v : V) l : NoDup (map fst l) -> NoDup (map fst (sput String.eqb k v l)).
Proof.
  intros H. unfold sput, sdelete. rewrite map_app.
  assert (N : NoDup (map fst (filter (other String.eqb k) l))).
  { apply NoDup_map_filter. exact H. }
  apply NoDup_Add with (a := k) (l := map fst (filter (other String.eqb k) l)).
  - rewrite <- (app_nil_r (map fst (filter _ l))) at 1. apply Add_app.
  - split; [exact N|]. intros Hi. apply in_map_iff in Hi as [e [E He]]. apply filter_In in He as [_ He].
    unfold other in He. rewrite E, String.eqb_refl in He. discriminate.
Qed.

Lemma mputs_nodup {V} (kvs : list (string * V)) : forall m, NoDup (map fst (ents m)) -> NoDup (map fst (ents (mputs kvs m))).
Proof.
  induction kvs as [|[k v] kvs IH]; intros m H; [exact H|]. cbn. apply IH. cbn. apply sput_nodup. exact H.
Qed.

Lemma mputs_keys {V} (kvs : list (string * V)) : forall m s, In s (map fst (ents (mputs kvs m))) ->
  In s (map fst kvs) \/ In s (map fst (ents m)).
Proof.
  induction kvs as [|[k v] kvs IH]; intros m s H; [right; exact H|]. cbn in H. apply IH in H as [H|H]; [left; right; exact H|].
  cbn in H. apply sput_keys in H as [->|H]; [left; left; reflexivity|right; exact H].
Qed.

Lemma mputs_flag {V} (kvs : list (string * V)) : forall m, oord (mputs kvs m) = oord m.
Proof. induction kvs as [|[k v] kvs IH]; intros m; [reflexivity|]. exact (IH (mput k v m)). Qed.

Lemma aims_anns d e : shaped d -> aims d FAnns e = true -> is_annotation_key (fst e) = true.
Proof.
  intros Hs H. unfold aims in H. destruct (target d (fst e)) as [g|] eqn:T; [|discriminate]. apply field_eqb_eq in H. subst g.
  destruct (target_cases d (fst e) FAnns Hs T) as [[H _]|[H|[H|[H _]]]]; try discriminate.
  - destruct d as [b|b x fs c s].
    + cbn in T. unfold base_target in T. destruct (_ || _) in T; discriminate.
    + unfold target in T. destruct (common_target (value (fst e))) as [f|] eqn:E1.
      { unfold common_target in E1. repeat match type of E1 with (if ?c then _ else _) = _ => destruct c end; congruence. }
      destruct (spec_target s (value (fst e))) as [f|] eqn:E2.
      { destruct s; cbn [spec_target] in E2; repeat match type of E2 with (if ?c then _ else _) = _ => destruct c end; congruence. }
      destruct (ext_target (value (fst e))) as [f|] eqn:E3.
      { unfold ext_target in E3. repeat match type of E3 with (if ?c then _ else _) = _ => destruct c end; congruence. }
      unfold is_annotation_key. destruct (is_string (fst e)).
      * destruct (value (fst e)) as [|a r]; [discriminate|]. destruct (Ascii.eqb a "("); [reflexivity|].
        unfold base_target in T. destruct (_ || _) in T; discriminate.
      * unfold base_target in T. destruct (_ || _) in T; discriminate.
  - destruct (d_kind d); cbn in H; intuition discriminate.
Qed.

Lemma anns_read {F : FloatIO} t l d m : t <> TStr -> hat (Map t l) = Ok d -> getf FAnns d = Some (VAnns m) ->
  exists es kvs, (forall e, In e es -> In e l /\ is_annotation_key (fst e) = true) /\ Forall2 ann_entry es kvs /\ m = mputs kvs (mkMap [] true).
Proof.
  intros Ht H G. destruct (hat_start t l d Ht H) as [sc [_ [Hf [Hs Hd]]]].
  set (d0 := set_schema sc (new_type (d_kind d))) in *.
  destruct (getf FAnns d0) as [old|] eqn:Eo.
  - destruct (fold_fields _ _ _ _ Hf FAnns old Eo) as [v [Hv Hfold]]. rewrite G in Hv. injection Hv as <-.
    unfold d0 in Eo. rewrite start_anns in Eo.
    assert (Hm : old = VAnns (mkMap [] true)) by (destruct (d_kind d); try discriminate; injection Eo as <-; reflexivity). subst old.
    apply fold_anns in Hfold as [kvs [Hk E]]. injection E as ->. eexists; eexists. split; [|split; [exact Hk|reflexivity]].
    intros e He. apply filter_In in He as [He Ha]. split; [exact He|]. exact (aims_anns d0 e Hs Ha).
  - pose proof (fold_kind _ _ _ _ Hf) as [_ S]. rewrite (getf_shape FAnns d0 d) in G; [discriminate| |exact Eo].
    rewrite same_shape_sym. exact S.
Qed.

Lemma put_extras_spec l : forall m, (forall k, In k (map fst (ents m)) -> exists s, k = KStr s) -> apart (map fst (ents m)) = true ->
  apart (map fst (ents (fold_left put_extra l m))) = true /\
  (forall k, In k (map fst (ents (fold_left put_extra l m))) -> In k (map fst (ents m)) \/ exists e, In e l /\ k = KStr (value (fst e))).
Proof.
  induction l as [|e l IH]; intros m Hk Ha; [split; [exact Ha|auto]|]. cbn [fold_left].
  assert (K : forall k, In k (map fst (ents (put_extra m e))) -> In k (map fst (ents m)) \/ k = KStr (value (fst e))).
  { intros k H. unfold put_extra, kput, sput, sdelete in H. cbn [ents] in H. rewrite map_app in H. apply in_app_or in H as [H|[H|[]]]; [left|right; symmetry; exact H].
    apply in_map_iff in H as [x [<- Hx]]. apply filter_In in Hx as [Hx _]. apply in_map. exact Hx. }
  destruct (IH (put_extra m e)) as [A B].
  - intros k H. apply K in H as [H| ->]; [apply Hk; exact H|eauto].
  - unfold put_extra, kput, sput, sdelete. cbn [ents]. rewrite map_app. apply apart_app. split; [|split; [reflexivity|]].
    + clear -Ha. induction (ents m) as [|x r IHr]; [reflexivity|]. cbn in *. apply andb_true_iff in Ha as [A1 A2].
      destruct (other gkey_eqb (KStr (value (fst e))) x); cbn; [|auto]. rewrite IHr by exact A2. rewrite andb_true_r.
      rewrite forallb_forall in *. intros y Hy. apply A1. apply in_map_iff in Hy as [z [<- Hz]]. apply filter_In in Hz as [Hz _]. apply in_map. exact Hz.
    + intros a b0 Ha0 [<-|[]]. apply in_map_iff in Ha0 as [x [<- Hx]]. apply filter_In in Hx as [_ Hx]. unfold other in Hx.
      apply negb_true_iff. exact Hx.
  - split; [exact A|]. intros k H. apply B in H as [H|[x [Hx ->]]]; [|right; exists x; split; [right; exact Hx|reflexivity]].
    apply K in H as [H| ->]; [left; exact H|right; exists e; split; [left; reflexivity|reflexivity]].
Qed.

(** No key of a mapping other than a string begins with a parenthesis. *)
Definition plain_keys (l : list (node * node)) : Prop :=
  forall e, In e l -> starts_paren (value (fst e)) = true -> is_string (fst e) = true.

Lemma extras_keys {F : FloatIO} t l d : t <> TStr -> hat (Map t l) = Ok d ->
  apart (extra_keys d) = true /\
  (forall k, In k (extra_keys d) -> exists e, In e l /\ k = KStr (value (fst e)) /\ extra_key (d_kind d) (fst e) = true).
Proof.
  intros Ht H. unfold extra_keys. rewrite (extras_read t l d Ht H).
  destruct (put_extras_spec (filter (fun e => extra_key (d_kind d) (fst e)) l) (mkMap [] true)) as [A B]; [intros k []|reflexivity|].
  split; [exact A|]. intros k Hk. apply B in Hk as [[]|[e [He ->]]]. apply filter_In in He as [He Hx]. eauto.
Qed.

Lemma known_names {F : FloatIO} n d s : hat n = Ok d -> In s (field_names d) -> In s (known_keys (d_kind d)) /\ starts_paren s = false.
Proof.
  intros H Hs. apply in_flat_map in Hs as [f [Hf Hs]].
  assert (N : f <> FExtra /\ f <> FAnns /\ f <> FDefault).
  { repeat split; intros ->; try (destruct Hs; fail). destruct (default_never_read n d H) as [E|E]; rewrite E in Hs; destruct Hs. }
  assert (E : s = written_key f).
  { destruct f; try (destruct N as [N1 [N2 N3]]; congruence); destruct Hs as [<-|[]]; reflexivity. }
  subst s. destruct N as [N1 [N2 N3]]. split; [|destruct f; reflexivity || congruence].
  destruct (d_kind d); cbn in Hf; repeat destruct Hf as [<-|Hf]; try destruct Hf; try congruence; cbn; tauto.
Qed.

Lemma scalar_read {F : FloatIO} n d : is_map n = false -> hat n = Ok d ->
  d = set_schema (d_type d) (new_type (d_kind d)).
Proof.
  intros Hn H. destruct (is_string n) eqn:Es.
  - rewrite (hat_string n (value n)) in H.
    + injection H as <-. rewrite d_type_set, d_kind_set, d_kind_new. reflexivity.
    + unfold is_string in Es. split; [destruct (node_tag n); congruence|reflexivity].
  - destruct n as [t v|t l|t l]; [| |discriminate]; destruct t; cbn in H, Es; try discriminate. injection H as <-. reflexivity.
Qed.

Lemma tidy_new k s : tidy (set_schema s (new_type k)).
Proof.
  assert (E1 : extra_keys (set_schema s (new_type k)) = []) by (destruct k; reflexivity).
  assert (E2 : ann_keys_of (set_schema s (new_type k)) = []) by (destruct k; reflexivity).
  unfold tidy. rewrite E1, E2. split; [apply shaped_set_schema, shaped_new|]. split.
  { intros z G. destruct k; cbn in G; try discriminate; injection G as <-; unfold StringDefaultMinLength, FileDefaultMinLength; lia. }
  repeat split; auto. constructor.
Qed.

Lemma uint_nonneg z : (- 2 ^ 63 <= z <= 2 ^ 63 - 1)%Z -> (0 <= uint_of_int64 z)%Z.
Proof. intros H. destruct (Z.ltb_spec z 0) as [L|L].
  - rewrite uint_of_int64_neg; unfold min_int64; lia.
  - rewrite (proj2 (uint_in_range z H) L). exact L.
Qed.

Lemma fold_minlength {F : FloatIO} rd kd l : forall old v, (exists z, old = VInt z /\ (0 <= z)%Z) ->
  fold_res (stepper rd kd FMinLength) old l = Ok v -> exists z, v = VInt z /\ (0 <= z)%Z.
Proof.
  induction l as [|[k n] l IH]; intros old v Ho H; [injection H as <-; exact Ho|].
  cbn [fold_res] in H. apply bind_ok in H as [w [H1 H]]. apply (IH w v); [|exact H]. unfold stepper in H1. cbn [fst snd] in H1.
  assert (E : step rd kd FMinLength k n old = (do z <- to_int n; Ok (VInt (uint_of_int64 z)))) by (destruct old; reflexivity).
  rewrite E in H1. apply bind_ok in H1 as [z [Hz H1]]. injection H1 as <-. eexists. split; [reflexivity|].
  apply uint_nonneg. apply denotes_int_iff in Hz. destruct Hz as [_ Hz]. exact Hz.
Qed.

Lemma ann_keys_paren {F : FloatIO} t l d s : t <> TStr -> hat (Map t l) = Ok d -> In s (ann_keys_of d) -> starts_paren s = true.
Proof.
  intros Ht H. unfold ann_keys_of. destruct (getf FAnns d) as [[]|] eqn:G; cbn; try (intros []; fail).
  match type of G with _ = Some (VAnns ?m0) => destruct (anns_read t l d m0 Ht H G) as [es [kvs [He [Hk E]]]]; subst m0 end. intros Hi. apply mputs_keys in Hi as [Hi|[]].
  rewrite (ann_keys es kvs Hk) in Hi. apply in_map_iff in Hi as [e [<- Hi]]. apply He in Hi as [_ Hi].
  unfold is_annotation_key in Hi. apply andb_true_iff in Hi as [_ Hi]. exact Hi.
Qed.

Lemma read_tidy_apart {F : FloatIO} n d : hat n = Ok d -> (forall s, In s (ann_keys_of d) -> ~ In (KStr s) (extra_keys d)) -> tidy d.
Proof.
  intros H Hax. destruct (is_map n) eqn:Em.
  2:{ rewrite (scalar_read n d Em H). apply tidy_new. }
  destruct n as [| |t l]; try discriminate.
  destruct (is_string (Map t l)) eqn:Es.
  { rewrite hat_eq in H. unfold hat_body in H. rewrite Es in H. injection H as <-. rewrite type_to_kind_eq. apply tidy_new. }
  assert (Ht : t <> TStr) by (intros ->; discriminate).
  pose proof (hat_shaped _ _ H) as Hs. destruct (extras_keys t l d Ht H) as [X1 X2].
  split; [exact Hs|]. split; [|split; [exact X1|split; [|split; [|exact Hax]]]].
  - intros z G. destruct (hat_start t l d Ht H) as [sc [_ [Hf [Hs0 Hd]]]].
    destruct (getf FMinLength (set_schema sc (new_type (d_kind d)))) as [old|] eqn:Eo.
    + destruct (fold_fields _ _ _ _ Hf FMinLength old Eo) as [v [Hv Hfold]]. rewrite G in Hv. injection Hv as <-.
      apply fold_minlength in Hfold as [z' [E Hz]]; [injection E as <-; exact Hz|].
      destruct (d_kind d); cbn in Eo; try discriminate; injection Eo as <-; eexists; (split; [reflexivity|]); cbn;
        unfold StringDefaultMinLength, FileDefaultMinLength; lia.
    + pose proof (fold_kind _ _ _ _ Hf) as [_ S]. rewrite (getf_shape FMinLength (set_schema sc (new_type (d_kind d))) d) in G; [discriminate| |exact Eo].
      rewrite same_shape_sym. exact S.
  - unfold ann_keys_of. destruct (getf FAnns d) as [[]|] eqn:G; try constructor.
    match type of G with _ = Some (VAnns ?m0) => destruct (anns_read t l d m0 Ht H G) as [es [kvs [He [Hk E]]]]; subst m0 end. apply mputs_nodup. constructor.
  - intros s Hi. destruct (known_names _ d s H Hi) as [K1 K2]. split.
    + intros Hx. apply X2 in Hx as [e [_ [E Hx]]]. injection E as ->. unfold extra_key in Hx. apply andb_true_iff in Hx as [Hx _].
      apply negb_true_iff in Hx. assert (existsb (String.eqb (value (fst e))) (known_keys (d_kind d)) = true); [|congruence].
      apply existsb_exists. exists (value (fst e)). split; [exact K1|apply String.eqb_refl].
    + intros Ha. apply (ann_keys_paren t l d s Ht H) in Ha. congruence.
Qed.

Lemma read_tidy {F : FloatIO} n d : (forall t l, n = Map t l -> plain_keys l) -> hat n = Ok d -> tidy d.
Proof.
  intros Hp H. apply (read_tidy_apart n d H). destruct (is_map n) eqn:Em.
  2:{ intros s Ha. rewrite (scalar_read n d Em H) in Ha. destruct (d_kind d); destruct Ha. }
  destruct n as [| |t l]; try discriminate. specialize (Hp t l eq_refl).
  destruct (is_string (Map t l)) eqn:Es.
  { rewrite hat_eq in H. unfold hat_body in H. rewrite Es in H. injection H as <-. rewrite type_to_kind_eq.
    intros s Ha. destruct (kind_of (value (Map t l))); destruct Ha. }
  assert (Ht : t <> TStr) by (intros ->; discriminate).
  pose proof (hat_shaped _ _ H) as Hs. destruct (extras_keys t l d Ht H) as [X1 X2].
  intros s Ha Hx. pose proof (ann_keys_paren t l d s Ht H Ha) as P. apply X2 in Hx as [e [He [E Hx]]]. injection E as ->.
  pose proof (Hp e He P) as Hstr. unfold extra_key in Hx. apply andb_true_iff in Hx as [_ Hx].
  assert (Hann : is_annotation_key (fst e) = true) by (unfold is_annotation_key; rewrite Hstr; exact P).
  unfold ann_keys_of in Ha. destruct d as [b|b x fs c s]; [destruct Ha|].
  destruct (shaped_cases b x fs c s Hs) as [N1 [N2 _]]. unfold d_kind in Hx. cbn in Hx, N1, N2.
  destruct (b_kind b); try congruence; rewrite Hann in Hx; discriminate.
Qed.

(** C27, second half, where the document has no `default`. *)
Lemma set_default_written {F : FloatIO} n d v n' : (forall t l, n = Map t l -> plain_keys l /\ ~ mentions "default" l) ->
  hat n = Ok d -> d_kind d <> TyNil -> d_kind d <> TyInclude -> to_yaml (setf FDefault (VOptVal (Some v)) d) = Ok n' ->
  exists m l, to_node v = Ok m /\ n' = Map TMap ((str_node "default", m) :: l).
Proof.
  intros Hp H K1 K2. pose proof (read_tidy n d (fun t l E => proj1 (Hp t l E)) H) as Ht.
  assert (Hx : ~ In (KStr "default") (extra_keys d)).
  { destruct (is_map n) eqn:Em.
    - destruct n as [| |t l]; try discriminate. destruct (is_string (Map t l)) eqn:Es.
      + rewrite hat_eq in H. unfold hat_body in H. rewrite Es in H. injection H as <-. rewrite type_to_kind_eq.
        intros Hi. destruct (kind_of (value (Map t l))); cbn in Hi; exact Hi.
      + intros Hi. apply (extras_keys t l d) in Hi as [e [He [E _]]]; [|intros ->; discriminate|exact H].
        injection E as E. apply (proj2 (Hp t l eq_refl)). exists e. split; [exact He|symmetry; exact E].
    - rewrite (scalar_read n d Em H). intros Hi. destruct (d_kind d); cbn in Hi; exact Hi. }
  assert (Ha : ~ In "default" (ann_keys_of d)).
  { destruct (is_map n) eqn:Em.
    - destruct n as [| |t l]; try discriminate. destruct (is_string (Map t l)) eqn:Es.
      + rewrite hat_eq in H. unfold hat_body in H. rewrite Es in H. injection H as <-. rewrite type_to_kind_eq.
        intros Hi. destruct (kind_of (value (Map t l))); cbn in Hi; exact Hi.
      + unfold ann_keys_of. destruct (getf FAnns d) as [[]|] eqn:G; try (intros []; fail).
        assert (Ht' : t <> TStr) by (intros ->; discriminate).
        match type of G with _ = Some (VAnns ?m0) => destruct (anns_read t l d m0 Ht' H G) as [es [kvs [He [Hk E]]]]; subst m0 end.
        intros Hi. apply mputs_keys in Hi as [Hi|[]]. rewrite (ann_keys es kvs Hk) in Hi. apply in_map_iff in Hi as [e [E Hi]].
        apply He in Hi as [_ Hi]. unfold is_annotation_key in Hi. change (value (fst e)) with (text e) in Hi. rewrite E in Hi. rewrite andb_false_r in Hi. discriminate.
    - rewrite (scalar_read n d Em H). intros Hi. destruct (d_kind d); cbn in Hi; exact Hi. }
  apply default_written; [apply tidy_set_default; assumption|].
  apply getf_setf_same. pose proof (hat_shaped n d H) as Hs. destruct d as [b|b x fs c s].
  - exfalso. unfold shaped, d_kind in *. cbn in *. destruct (b_kind b); try congruence; discriminate Hs.
  - eexists. split; reflexivity.
Qed.
