(** OverrideType of a type definition, and what it does to what is saved. *)
From Coq Require Import SpecFloat.
From Verif Require Import Base Num OMap OMapSpec Keys Yaml Values Assign Formats Meta Out Xml Example DataType Marshal TypeFacts Fields FacetSpec FieldProofs FacetProofs DocProofs.

(** DataType.go:38-40 OverrideType, for definitions of every kind: all of them have a DataType in them *)
Definition override_type (t : string) (d : dtype) : dtype :=
  match d with
  | TBase b => TBase (mkBase t (b_kind b) (b_extra b))
  | TExt b x f c s => TExt (mkBase t (b_kind b) (b_extra b)) x f c s
  end.

(** DataType.go:30-36 Type, Schema *)
Definition type_of (d : dtype) : string := match d with TBase b | TExt b _ _ _ _ => b_schema b end.
Definition schema_of (d : dtype) : string := match d with TBase b | TExt b _ _ _ _ => b_schema b end.

(** ** Vocabulary *)

(** The node that names the type [t] in a definition of kind [k]. *)
Definition type_node (k : dkind) (t : string) : node :=
  match k with TyInclude => Scal TInclude t | _ => str_node t end.

(** An extra facet or an annotation called `type`. *)
Definition hides_type (d : dtype) : Prop :=
  match d with
  | TBase b => In (KStr "type") (map fst (ents (b_extra b)))
  | TExt b x _ _ _ => In (KStr "type") (map fst (ents (b_extra b))) \/ In "type" (map fst (ents (x_anns x)))
  end.

(** A definition with facets of its kind is not an include. *)
Definition sorted (d : dtype) : Prop := match d with TExt b _ _ _ _ => b_kind b <> TyInclude | TBase _ => True end.

(** Two mappings, or two single nodes, that are the same but for the type: [a] in one and [b] in the other, once. *)
Inductive retyped (a b : node) : node -> node -> Prop :=
| retyped_short : retyped a b a b
| retyped_full l r : Forall (fun e => fst e <> str_node "type") r ->
    Forall (fun e => In (fst e) [str_node "default"; str_node "displayName"; str_node "description"]) l ->
    retyped a b (Map TMap (l ++ (str_node "type", a) :: r)) (Map TMap (l ++ (str_node "type", b) :: r)).

(** ** Proofs *)

Local Notation kt := (KStr "type").

Section Override.
  Context {F : FloatIO}.
  Variables a b : node.

  Definition free (o : outm) : Prop := Forall (fun e => fst e <> kt) o.
  (* the two maps while they are filled: the type is not there yet, or is, or has been replaced *)
  Definition early (o : outm) : Prop := Forall (fun e => In (fst e) [KStr "default"; KStr "displayName"; KStr "description"]) o.
  Definition before (o o' : outm) : Prop := o = o' /\ early o.
  Definition between (o o' : outm) : Prop := exists l r, o = l ++ (kt, Ok a) :: r /\ o' = l ++ (kt, Ok b) :: r /\ early l /\ free r.
  Definition after (o o' : outm) : Prop := o = o'.

  Lemma kt_eqb k : gkey_eqb k kt = true <-> k = kt.
  Proof. destruct k; cbn; split; try discriminate; intros H; [apply String.eqb_eq in H; congruence|injection H as ->; apply String.eqb_refl]. Qed.
  Lemma kt_eqb' k : gkey_eqb kt k = true <-> k = kt.
  Proof. rewrite gkey_eqb_sym. apply kt_eqb. Qed.
  Lemma early_free o : early o -> free o.
  Proof. intros H. eapply Forall_impl; [|exact H]. intros e He X. cbv beta in He. rewrite X in He. cbn in He. intuition discriminate. Qed.

  Lemma free_app l r : free (l ++ r) <-> free l /\ free r.
  Proof. apply Forall_app. Qed.
  Lemma free_delete k o : free o -> free (sdelete gkey_eqb k o).
  Proof. intros H. apply Forall_forall. intros e He. apply filter_In in He as [He _]. eapply Forall_forall in H; eassumption. Qed.
  Lemma free_put k v o : k <> kt -> free o -> free (oput k v o).
  Proof. intros N H. apply free_app. split; [apply free_delete; exact H|]. repeat constructor. exact N. Qed.
  Lemma delete_other k (v : res node) l r : k <> kt -> sdelete gkey_eqb k (l ++ (kt, v) :: r) = sdelete gkey_eqb k l ++ (kt, v) :: sdelete gkey_eqb k r.
  Proof.
    intros N. unfold sdelete. rewrite filter_app. cbn [filter]. unfold other at 2. cbn [fst].
    destruct (gkey_eqb kt k) eqn:E; [exfalso; apply N; apply kt_eqb'; exact E|]. reflexivity.
  Qed.
  Lemma delete_free o : free o -> sdelete gkey_eqb kt o = o.
  Proof.
    intros H. induction H as [|e o N H IH]; [reflexivity|]. cbn. unfold other at 1. destruct (gkey_eqb (fst e) kt) eqn:E; [exfalso; apply N; apply kt_eqb; exact E|].
    cbn. f_equal. exact IH.
  Qed.
  Lemma delete_kt (v : res node) l r : free l -> free r -> sdelete gkey_eqb kt (l ++ (kt, v) :: r) = l ++ r.
  Proof.
    intros H1 H2. unfold sdelete. rewrite filter_app. f_equal; [exact (delete_free l H1)|]. cbn [filter]. unfold other at 1. cbn [fst].
    replace (gkey_eqb kt kt) with true by reflexivity. cbn. exact (delete_free r H2).
  Qed.

  Lemma early_delete k o : early o -> early (sdelete gkey_eqb k o).
  Proof. intros H. apply Forall_forall. intros e He. apply filter_In in He as [He _]. unfold early in H. rewrite Forall_forall in H. exact (H e He). Qed.
  Lemma put_before k v o o' : In k [KStr "default"; KStr "displayName"; KStr "description"] -> before o o' -> before (oput k v o) (oput k v o').
  Proof. intros N [-> H]. split; [reflexivity|]. apply Forall_app. split; [apply early_delete; exact H|]. constructor; [exact N|constructor]. Qed.
  Lemma put_type o o' : before o o' -> between (oput kt (Ok a) o) (oput kt (Ok b) o').
  Proof.
    intros [-> H]. exists o', []. unfold oput, sput. rewrite (delete_free _ (early_free _ H)). split; [reflexivity|]. split; [reflexivity|]. split; [exact H|constructor].
  Qed.
  Lemma put_between k v o o' : k <> kt -> between o o' -> between (oput k v o) (oput k v o').
  Proof.
    intros N [l [r [-> [-> [Hl Hr]]]]]. exists (sdelete gkey_eqb k l), (sdelete gkey_eqb k r ++ [(k, v)]).
    unfold oput, sput. rewrite !delete_other by exact N. rewrite <- !app_assoc. cbn. split; [reflexivity|]. split; [reflexivity|].
    split; [apply early_delete; exact Hl|]. apply free_app. split; [apply free_delete; exact Hr|]. constructor; [exact N|constructor].
  Qed.
  Lemma put_hides v o o' : between o o' -> oput kt v o = oput kt v o'.
  Proof. intros [l [r [-> [-> [Hl Hr]]]]]. unfold oput, sput. rewrite !delete_kt; try exact Hr; try (apply early_free; exact Hl). reflexivity. Qed.

  (** Putting further keys: the type is still there, or it has been replaced. *)
  Lemma all_between {K V} (kf : K -> gkey) (vf : V -> res node) l : forall o o', between o o' ->
    (~ In kt (map (fun e => kf (fst e)) l) -> between (oput_all kf vf l o) (oput_all kf vf l o')) /\
    (In kt (map (fun e => kf (fst e)) l) -> oput_all kf vf l o = oput_all kf vf l o').
  Proof.
    induction l as [|e l IH]; intros o o' H; [split; [intros _; exact H|intros []]|]. cbn [map In oput_all fold_left].
    destruct (gkey_eqb (kf (fst e)) kt) eqn:E.
    - apply kt_eqb in E. rewrite E. split; [intros N; exfalso; apply N; left; reflexivity|]. intros _. rewrite (put_hides (vf (snd e)) o o' H). reflexivity.
    - assert (N : kf (fst e) <> kt) by (intros X; apply kt_eqb in X; congruence).
      destruct (IH _ _ (put_between _ (vf (snd e)) _ _ N H)) as [I1 I2]. split.
      + intros N'. apply I1. intros X. apply N'. right. exact X.
      + intros [X|X]; [exfalso; apply N; exact X|]. apply I2. exact X.
  Qed.

  Lemma opt_between k v o o' : k <> kt -> between o o' -> between (oput_opt k v o) (oput_opt k v o').
  Proof. destruct v; [apply put_between|intros _ H; exact H]. Qed.
  Lemma if_between c k v o o' : k <> kt -> between o o' -> between (oput_if c k v o) (oput_if c k v o').
  Proof. destruct c; [apply put_between|intros _ H; exact H]. Qed.
  Lemma opt_before k v o o' : In k [KStr "default"; KStr "displayName"; KStr "description"] -> before o o' -> before (oput_opt k v o) (oput_opt k v o').
  Proof. destruct v; [apply put_before|intros _ H; exact H]. Qed.

  Lemma spec_between (ty : dtype -> res node) s o o' : between o o' -> between (spec_marshal ty s o) (spec_marshal ty s o').
  Proof.
    intros H. destruct s; cbn [spec_marshal]; repeat (apply opt_between; [discriminate|]); repeat (apply if_between; [discriminate|]);
    repeat (apply opt_between; [discriminate|]); repeat (apply if_between; [discriminate|]); exact H.
  Qed.

  (** ** What is written *)

  Lemma between_saved o o' : (forall x, fst (float_text x) <> TStr) -> between o o' ->
    (forall n, short_or_full o = Ok n -> exists n', short_or_full o' = Ok n' /\ retyped a b n n') /\
    (short_or_full o = Err <-> short_or_full o' = Err) /\ (short_or_full o = Panic <-> short_or_full o' = Panic).
  Proof.
    intros Fl [l [r [-> [-> [Hl Hr]]]]].
    assert (S : forall c, is_short (l ++ (kt, Ok c) :: r) = match l ++ r with [] => true | _ => false end).
    { intros c. unfold is_short. destruct l as [|x l].
      - destruct r as [|y r]; reflexivity.
      - cbn [app List.length]. rewrite app_length. cbn [List.length]. rewrite Nat.add_succ_r. reflexivity. }
    assert (M : forall c, out_to_yaml (l ++ (kt, Ok c) :: r) =
      do p <- map_res (entry_node key_node (fun x : res node => x)) l; do q <- map_res (entry_node key_node (fun x => x)) r; Ok (Map TMap (p ++ (str_node "type", c) :: q))).
    { intros c. unfold out_to_yaml, map_to_yaml. cbn [oord ents]. clear. induction l as [|e l IH].
      - cbn [app map_res]. cbn [entry_node key_node fst snd bind]. destruct (map_res _ r); reflexivity.
      - cbn [app map_res]. destruct (entry_node _ _ e) as [x| |]; cbn [bind]; [|reflexivity|reflexivity].
        destruct (map_res (entry_node key_node (fun x => x)) (l ++ (kt, Ok c) :: r)) as [u| |]; cbn [bind] in IH |- *;
        destruct (map_res _ l) as [p| |]; cbn [bind] in IH |- *; try destruct (map_res _ r) as [q| |]; cbn [bind] in IH |- *; try discriminate IH; try reflexivity.
        injection IH as ->. reflexivity. }
    unfold short_or_full. rewrite !S. destruct (l ++ r) as [|e lr] eqn:E.
    - apply app_eq_nil in E as [-> ->]. cbn. split; [|split; split; discriminate]. intros n H. injection H as <-. exists b. split; [reflexivity|constructor].
    - rewrite !M. clear S M. destruct (map_res _ l) as [p| |] eqn:P; cbn [bind]; [|split; [discriminate|split; split; auto; discriminate]|split; [discriminate|split; split; auto; discriminate]].
      destruct (map_res _ r) as [q| |] eqn:Q; cbn [bind]; [|split; [discriminate|split; split; auto; discriminate]|split; [discriminate|split; split; auto; discriminate]].
      split; [|split; split; discriminate]. intros n H. injection H as <-. eexists. split; [reflexivity|]. constructor.
      + apply map_res_entries in Q. clear -Q Hr Fl. induction Q as [|e x r q [A _] Q IH]; [constructor|]. inversion Hr as [|e' r' N Hr']; subst. constructor; [|exact (IH Hr')].
        intros X. rewrite X in A. destruct (fst e) as [|y|y|z|y|m] eqn:Ek; cbn in A; try discriminate A.
        * injection A as A. apply N. congruence.
        * injection A as A _. exact (Fl y A).
      + apply map_res_entries in P. clear -P Hl. induction P as [|e x l p [A _] P IH]; [constructor|]. inversion Hl as [|e' l' N Hl']; subst. constructor; [|exact (IH Hl')].
        destruct N as [N|[N|[N|[]]]]; rewrite <- N in A; cbn in A; injection A as A; cbn; auto.
  Qed.

  Lemma ext_before x o o' : before o o' -> before (oput_opt (KStr KeyDescription) (str_opt (x_descr x)) (oput_opt (KStr KeyDisplayName) (str_opt (x_display x)) o))
    (oput_opt (KStr KeyDescription) (str_opt (x_descr x)) (oput_opt (KStr KeyDisplayName) (str_opt (x_display x)) o')).
  Proof. intros H. apply opt_before; [cbn; auto|]. apply opt_before; [cbn; auto|]. exact H. Qed.
End Override.

Section Saved.
  Context {F : FloatIO}.

  Lemma in_extra (l : list (gkey * gval)) : map (fun e => (fun k : gkey => k) (fst e)) l = map fst l.
  Proof. reflexivity. Qed.
  Lemma in_anns (l : list (string * untyped)) : In kt (map (fun e => KStr (fst e)) l) <-> In "type" (map fst l).
  Proof.
    induction l as [|e l IH]; [reflexivity|]. cbn [map In]. rewrite IH. split; (intros [H|H]; [left|right; exact H]); [injection H as ->; reflexivity|rewrite H; reflexivity].
  Qed.

  Lemma hides_dec {A} (l : list A) (f : A -> gkey) : {In kt (map f l)} + {~ In kt (map f l)}.
  Proof.
    induction l as [|x l IH]; [right; intros []|]. cbn [map In]. destruct (gkey_eqb (f x) kt) eqn:E; [left; left; apply kt_eqb; exact E|].
    destruct IH as [I|N]; [left; right; exact I|right]. intros [X|X]; [apply kt_eqb in X; congruence|exact (N X)].
  Qed.

  (** The two maps that are filled. *)
  Lemma marshal_override ty t d : sorted d ->
    (~ hides_type d -> between (type_node (d_kind d) (type_of d)) (type_node (d_kind d) t) (type_marshal ty d []) (type_marshal ty (override_type t d) [])) /\
    (hides_type d -> type_marshal ty d [] = type_marshal ty (override_type t d) []).
  Proof.
    intros Hs. destruct d as [b|b x fs c s].
    - change (d_kind (TBase b)) with (b_kind b). cbn [override_type type_marshal short_marshal b_kind type_of hides_type].
      assert (G : forall a a', between a a' (oput kt (Ok a) []) (oput kt (Ok a') [])) by (intros a a'; apply put_type; split; [reflexivity|constructor]).
      assert (B : forall a a', (~ In kt (map fst (ents (b_extra b))) -> between a a' (oput_all (fun k => k) to_node (ents (b_extra b)) (oput kt (Ok a) []))
        (oput_all (fun k => k) to_node (ents (b_extra b)) (oput kt (Ok a') []))) /\
        (In kt (map fst (ents (b_extra b))) -> oput_all (fun k => k) to_node (ents (b_extra b)) (oput kt (Ok a) []) = oput_all (fun k => k) to_node (ents (b_extra b)) (oput kt (Ok a') []))).
      { intros a a'. exact (all_between a a' (fun k => k) to_node _ _ _ (G a a')). }
      destruct (b_kind b) eqn:K; cbn [short_marshal type_node]; unfold short_marshal, base_marshal, include_marshal; rewrite ?K; cbn [b_schema b_extra b_kind]; apply B.
    - change (d_kind (TExt b x fs c s)) with (b_kind b). cbn [override_type type_marshal type_of hides_type]. cbn in Hs. unfold full_marshal, ext_marshal, base_marshal. cbn [b_schema b_extra].
      set (o0 := oput_opt (KStr KeyDefault) _ []).
      assert (B0 : before o0 o0). { split; [reflexivity|]. unfold o0. destruct (c_def c); [|constructor]. cbn. constructor; [cbn; auto|constructor]. }
      assert (T : forall u, type_node (b_kind b) u = str_node u) by (intros u; destruct (b_kind b); try reflexivity; congruence). rewrite !T.
      pose proof (put_type (str_node (b_schema b)) (str_node t) _ _ (ext_before x _ _ B0)) as B1.
      destruct (all_between _ _ (fun k => k) to_node (ents (b_extra b)) _ _ B1) as [P1 P2].
      destruct (hides_dec (ents (b_extra b)) fst) as [I|N].
      { split; [intros X; exfalso; apply X; left; exact I|]. intros _. rewrite (P2 I). reflexivity. }
      specialize (P1 N). apply (if_between _ _ (negb (x_required x)) (KStr KeyRequired) (Ok (bool_node (x_required x)))) in P1; [|discriminate].
      destruct (all_between _ _ KStr untyped_to_yaml (ents (x_anns x)) _ _ P1) as [Q1 Q2]. rewrite in_anns in Q1, Q2.
      destruct (in_dec string_dec "type" (map fst (ents (x_anns x)))) as [I|N'].
      { split; [intros X; exfalso; apply X; right; exact I|]. intros _. rewrite (Q2 I). reflexivity. }
      split; [|intros [X|X]; [exfalso; exact (N X)|exfalso; exact (N' X)]]. intros _.
      apply if_between; [discriminate|]. apply opt_between; [discriminate|]. apply opt_between; [discriminate|]. apply spec_between.
      apply opt_between; [discriminate|]. apply if_between; [discriminate|]. exact (Q1 N').
  Qed.
  Lemma to_yaml_eq d : to_yaml d = short_or_full (type_marshal to_yaml d []).
  Proof. destruct d; reflexivity. Qed.

  Lemma saved_override t d : (forall x, fst (float_text x) <> TStr) -> sorted d -> ~ hides_type d ->
    (forall n, to_yaml d = Ok n -> exists n', to_yaml (override_type t d) = Ok n' /\ retyped (type_node (d_kind d) (type_of d)) (type_node (d_kind d) t) n n') /\
    (to_yaml d = Err <-> to_yaml (override_type t d) = Err) /\ (to_yaml d = Panic <-> to_yaml (override_type t d) = Panic).
  Proof. intros Fl Hs N. rewrite !to_yaml_eq. apply between_saved; [exact Fl|]. apply marshal_override; assumption. Qed.
  Lemma saved_hidden t d : sorted d -> hides_type d -> to_yaml (override_type t d) = to_yaml d.
  Proof. intros Hs H. rewrite !to_yaml_eq. f_equal. symmetry. apply marshal_override; assumption. Qed.

  Lemma shaped_sorted d : shaped d -> sorted d.
  Proof. destruct d as [b|b x fs c s]; [intros _; exact I|]. unfold shaped, sorted. change (d_kind (TExt b x fs c s)) with (b_kind b). intros H X. rewrite X in H. discriminate H. Qed.
  Lemma hides_override t d : hides_type (override_type t d) <-> hides_type d.
  Proof. destruct d; reflexivity. Qed.
  Lemma override_twice t u d : override_type t (override_type u d) = override_type t d.
  Proof. destruct d; reflexivity. Qed.
  Lemma kind_override t d : d_kind (override_type t d) = d_kind d.
  Proof. destruct d; reflexivity. Qed.
  Lemma type_override t d : type_of (override_type t d) = t.
  Proof. destruct d; reflexivity. Qed.
  Lemma sorted_override t d : sorted (override_type t d) <-> sorted d.
  Proof. destruct d; reflexivity. Qed.

  Lemma loads_override t d n d' : (forall x, fst (float_text x) <> TStr) -> sorted d -> ~ hides_type d -> to_yaml (override_type t d) = Ok n -> hat n = Ok d' ->
    (d_kind d = TyInclude -> d_kind d' = TyInclude) /\ (d_kind d <> TyInclude -> named t (d_kind d')).
  Proof.
    intros Fl Hs N W R. apply sorted_override with (t := t) in Hs. rewrite <- (hides_override t) in N.
    destruct (proj1 (saved_override t _ Fl Hs N) n W) as [n' [W' T]]. rewrite override_twice in W'. assert (n' = n) by congruence. subst n'.
    rewrite type_override, kind_override in T.
    assert (G : (exists l r, n = Map TMap (l ++ (str_node "type", type_node (d_kind d) t) :: r) /\ no_type_key l) \/ n = type_node (d_kind d) t).
    { inversion T as [X Y|l r Hr Hl X Y]; [right; reflexivity|]. left. exists l, r. split; [reflexivity|]. intros e He. rewrite Forall_forall in Hl. specialize (Hl e He).
      destruct Hl as [Hl|[Hl|[Hl|[]]]]; rewrite <- Hl; cbn; split; discriminate. }
    destruct G as [[l [r [-> Hl]]]| ->].
    - apply expanded_kind in R; [|discriminate]. split.
      + intros K. rewrite K in R. symmetry. eapply classified_fun; [|exact R]. apply by_include; [exact Hl|left; reflexivity|reflexivity].
      + intros K. replace (d_kind d') with (kind_of t); [apply kind_of_named|]. eapply classified_fun; [|exact R].
        eapply by_type; [exact Hl|left; reflexivity| |apply kind_of_named]. destruct (d_kind d); try congruence; split; reflexivity.
    - split.
      + intros K. rewrite K in R. cbn in R. injection R as <-. reflexivity.
      + intros K. assert (type_node (d_kind d) t = str_node t) as E by (destruct (d_kind d); try reflexivity; congruence). rewrite E in R.
        destruct (string_classified (str_node t) t) as [d2 [R2 [Nm _]]]; [split; reflexivity|]. assert (d2 = d') by congruence. subst d2. exact Nm.
  Qed.

  Lemma plain_override t k : exists n d', to_yaml (override_type t (new_type k)) = Ok n /\ n = type_node k t /\ hat n = Ok d' /\ type_of d' = t /\ schema_of d' = t.
  Proof.
    assert (W : to_yaml (override_type t (new_type k)) = Ok (type_node k t)) by (destruct k; reflexivity).
    destruct (hat (type_node k t)) as [d'| |] eqn:R.
    - exists (type_node k t), d'. split; [exact W|]. split; [reflexivity|]. split; [exact R|].
      assert (E : type_of d' = t); [|split; [exact E|destruct d'; exact E]].
      destruct (string_classified (str_node t) t) as [d2 [R2 [_ [T _]]]]; [split; reflexivity|].
      assert (D : type_of d' = d_type d') by (destruct d'; reflexivity). rewrite D.
      destruct k; cbn [type_node] in R; try (assert (d2 = d') by congruence; subst d2; exact T). cbn in R. injection R as <-. reflexivity.
    - exfalso. destruct (string_classified (str_node t) t) as [d2 [R2 _]]; [split; reflexivity|]. destruct k; cbn [type_node] in R; try congruence. discriminate R.
    - exfalso. destruct (string_classified (str_node t) t) as [d2 [R2 _]]; [split; reflexivity|]. destruct k; cbn [type_node] in R; try congruence. discriminate R.
  Qed.
End Saved.
