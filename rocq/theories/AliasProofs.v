(** Proofs about documents with aliases (AliasSpec.v). *)
From Coq Require Import SpecFloat Lia.
From Verif Require Import Base Num OMap OMapSpec Keys Yaml Values Assign Formats Meta Out Xml Example DataType TypeFacts Doc Api Library AliasSpec.

Lemma out_sput {K A B} keq (f : A -> B) k v (l : list (K * A)) :
  map (fun e => (fst e, f (snd e))) (sput keq k v l) = sput keq k (f v) (map (fun e => (fst e, f (snd e))) l).
Proof.
  unfold sput, sdelete. rewrite map_app. cbn [map fst snd]. f_equal. induction l as [|e l IH]; [reflexivity|]. cbn [filter map].
  change (other keq k (fst e, f (snd e))) with (other keq k e). destruct (other keq k e); cbn [map]; rewrite IH; reflexivity.
Qed.
Lemma out_mput {A B} (f : A -> B) k v m : out_map f (mput k v m) = mput k (f v) (out_map f m).
Proof. unfold out_map, mput. cbn [ents oord]. rewrite out_sput. reflexivity. Qed.
Lemma out_kput {A B} (f : A -> B) k v m : out_map f (kput k v m) = kput k (f v) (out_map f m).
Proof. unfold out_map, kput. cbn [ents oord]. rewrite out_sput. reflexivity. Qed.
Lemma out_gomap {K A B} keq (f : A -> B) k v (l : list (K * A)) :
  map (fun e => (fst e, f (snd e))) (gomap_upd keq k v l) = gomap_upd keq k (f v) (map (fun e => (fst e, f (snd e))) l).
Proof. induction l as [|[k' v'] l IH]; [reflexivity|]. cbn [gomap_upd map fst snd]. destruct (keq k' k); cbn [map fst snd]; [reflexivity|rewrite IH; reflexivity]. Qed.

Section Out.
  Context {F : FloatIO}.
  Variable names : string -> node.
  Hypothesis NoNum : no_number.
  Let o := write_out names.
  Let oe (e : node * node) : node * node := (o (fst e), o (snd e)).

  Lemma not_alias t v : is_alias (Scal t v) = false -> o (Scal t v) = Scal t v.
  Proof. unfold o. cbn. destruct t as [| | | | | | | | | | |s]; try reflexivity. destruct s; [discriminate|reflexivity]. Qed.

  Lemma key_same k : is_alias k = false -> value (o k) = value k /\ node_tag (o k) = node_tag k /\ is_string (o k) = is_string k /\ to_scalar (o k) = to_scalar k.
  Proof. destruct k as [t v|t l|t l]; intros H; [rewrite (not_alias t v H)| |]; repeat split. Qed.

  (** What is read from a node without a second look at it *)
  Definition steady {A} (conv : node -> res A) : Prop := forall n a, conv n = Ok a -> conv (o n) = Ok a.
  Lemma alias_or t v : is_alias (Scal t v) = false \/ t = no_tag.
  Proof. destruct t as [| | | | | | | | | | |s]; auto. destruct s; auto. Qed.
  Ltac steady := intros n a H; destruct n as [t v|t l|t l]; [|exact H|exact H]; destruct (alias_or t v) as [E| ->]; [rewrite (not_alias t v E); exact H|].
  Lemma str_steady : steady to_str. Proof. steady. discriminate. Qed.
  Lemma int_steady : steady to_int. Proof. steady. discriminate. Qed.
  Lemma bool_steady : steady to_bool. Proof. steady. discriminate. Qed.
  Lemma float_steady : steady to_float. Proof. steady. cbn in H. rewrite NoNum in H. discriminate. Qed.

  Lemma with_steady {A B} (conv : node -> res A) (f : A -> B) n x b : steady conv ->
    run_assign (assign_with conv f n x) = Ok b -> run_assign (assign_with conv f (o n) x) = Ok b.
  Proof. intros C. unfold assign_with. destruct (conv n) as [a| |] eqn:E; try discriminate. rewrite (C _ _ E). intros H; exact H. Qed.

  Lemma strings_steady n x l : run_assign (as_string_list n x) = Ok l -> run_assign (as_string_list (o n) x) = Ok l.
  Proof.
    unfold as_string_list. destruct n as [t v|t l0|t l0]; try discriminate. intros H.
    change (o (Seq t l0)) with (Seq t (map o l0)). cbn [seq_for_each] in *.
    assert (G : forall acc tmp, loop string_list_step acc l0 = (tmp, Ok tt) -> loop string_list_step acc (map o l0) = (tmp, Ok tt)).
    { clear H. induction l0 as [|a l0 IH]; intros acc tmp H; [exact H|]. cbn [loop map] in *. unfold string_list_step at 1 in H. unfold string_list_step at 1.
      destruct (to_str a) as [s| |] eqn:E; try discriminate. rewrite (str_steady _ _ E). apply IH. exact H. }
    destruct (loop string_list_step [] l0) as [tmp [[]| |]] eqn:E; try discriminate. rewrite (G _ _ E). exact H.
  Qed.

  (** Folds *)
  Lemma fold_out {S T} (f : S -> node * node -> res S) (g : T -> node * node -> res T) (h : S -> T) l :
    (forall s e s', In e l -> f s e = Ok s' -> g (h s) (oe e) = Ok (h s')) ->
    forall s s', fold_res f s l = Ok s' -> fold_res g (h s) (map oe l) = Ok (h s').
  Proof.
    induction l as [|e l IH]; intros A s s' H; cbn [fold_res map] in *; [injection H as <-; reflexivity|].
    apply bind_ok in H. destruct H as [s1 [H1 H2]]. rewrite (A _ _ _ (or_introl eq_refl) H1). cbn [bind]. apply IH; [|exact H2]. intros s2 e2 s3 I; apply A; right; exact I.
  Qed.
  Lemma fold_seq_out {S T} (f : S -> node -> res S) (g : T -> node -> res T) (h : S -> T) l :
    (forall s e s', In e l -> f s e = Ok s' -> g (h s) (o e) = Ok (h s')) ->
    forall s s', fold_res f s l = Ok s' -> fold_res g (h s) (map o l) = Ok (h s').
  Proof.
    induction l as [|e l IH]; intros A s s' H; cbn [fold_res map] in *; [injection H as <-; reflexivity|].
    apply bind_ok in H. destruct H as [s1 [H1 H2]]. rewrite (A _ _ _ (or_introl eq_refl) H1). cbn [bind]. apply IH; [|exact H2]. intros s2 e2 s3 I; apply A; right; exact I.
  Qed.

  (** The entries of a mapping *)
  Definition entry_apart (e : node * node) : Prop :=
    is_alias (fst e) = false /\ aliases_apart (snd e) /\
    (is_alias (snd e) = true -> ~ In (value (fst e)) ["example"; "title"; "content"]) /\
    (value (fst e) = "examples" -> match snd e with Map _ m => Forall (fun e => is_alias (snd e) = false) m | _ => True end).
  Lemma apart_map t l : aliases_apart (Map t l) -> Forall entry_apart l.
  Proof. cbn [aliases_apart]. induction l as [|[k v] l IH]; intros H; [constructor|]. destruct H as [H1 H2]. constructor; [exact H1|apply IH; exact H2]. Qed.
  Lemma apart_seq t l : aliases_apart (Seq t l) -> Forall aliases_apart l.
  Proof. cbn [aliases_apart]. induction l as [|v l IH]; intros H; [constructor|]. destruct H as [H1 H2]. constructor; [exact H1|apply IH; exact H2]. Qed.

  Lemma amap_out {A B} (dec : node -> res A) (dec' : node -> res B) (h : A -> B) n :
    (forall t l e a, n = Map t l -> In e l -> dec (snd e) = Ok a -> dec' (o (snd e)) = Ok (h a)) ->
    forall m m', read_amap dec m n = Ok m' -> read_amap dec' (out_map h m) (o n) = Ok (out_map h m').
  Proof.
    intros D m m'. unfold read_amap. destruct n as [t v|t l|t l]; try discriminate. cbn [map_fold]. intros H.
    change (o (Map t l)) with (Map t (map oe l)). cbn [map_fold].
    apply (fold_out (read_amap_pair dec) (read_amap_pair dec') (out_map h) l); [|exact H].
    intros s e s' I E. unfold read_amap_pair in *. apply bind_ok in E. destruct E as [k [E1 E]]. apply bind_ok in E. destruct E as [v [E2 E]]. injection E as <-.
    unfold oe. cbn [fst snd]. rewrite (str_steady _ _ E1). cbn [bind]. rewrite (D t l e v eq_refl I E2). cbn [bind]. rewrite out_mput. reflexivity.
  Qed.

  Lemma untyped_out m n m' : read_amap as_gnode m n = Ok m' -> read_amap as_gnode (out_untyped names m) (o n) = Ok (out_untyped names m').
  Proof. apply amap_out. intros t l e a _ _ H. injection H as <-. reflexivity. Qed.
  Lemma annotation_out n m : read_annotation n = Ok m -> read_annotation (o n) = Ok (out_untyped names m).
  Proof. apply (untyped_out anew). Qed.

  Ltac bind H := apply bind_ok in H; let a := fresh "a" in let H' := fresh "H" in destruct H as [a [H' H]].
  Ltac plain H := bind H; injection H as <-.

  (** ** Examples *)
  Lemma val_out k n v : ex_val k n = Ok v -> ex_val k (o n) = Ok (out_val names v).
  Proof.
    destruct k; cbn [ex_val]; intros H;
      first [ discriminate H
            | plain H; first [rewrite (str_steady _ _ H0)|rewrite (bool_steady _ _ H0)|rewrite (int_steady _ _ H0)|rewrite (float_steady _ _ H0)]; reflexivity
            | injection H as <-; reflexivity
            | idtac ].
    destruct n as [t s|t l|t l]; try discriminate. injection H as <-. change (o (Seq t l)) with (Seq t (map o l)). cbn [out_val]. rewrite !map_map. reflexivity.
  Qed.

  Lemma ex_assign_out kd e p e' : entry_apart p -> ex_assign kd e p = Ok e' -> ex_assign kd (out_ex names e) (oe p) = Ok (out_ex names e').
  Proof.
    destruct p as [k v]. intros [Ka _] H. cbn [fst snd] in *. unfold ex_assign, oe in *. cbn [fst snd] in *.
    destruct (key_same k Ka) as [V [_ [S' Sc]]]. rewrite V, S', Sc. clear V S' Sc.
    assert (X : forall s, out_ex names (ex_set_extra e s v) = ex_set_extra (out_ex names e) s (o v)).
    { intros s. unfold ex_set_extra, out_ex. cbn. rewrite out_kput. reflexivity. }
    destruct (negb (is_string k)). { bind H. rewrite H0. injection H as <-. cbn [bind]. rewrite X. reflexivity. }
    destruct (value k) as [|c r]; [discriminate|].
    destruct (Ascii.eqb c "("). { plain H. rewrite (annotation_out _ _ H0). cbn [bind]. unfold out_ex. cbn. rewrite out_mput. reflexivity. }
    destruct (String.eqb (String c r) KeyDisplayName). { plain H. cbn [out_ex ex_display]. unfold as_string_ptr. rewrite (with_steady _ _ _ _ _ str_steady H0). reflexivity. }
    destruct (String.eqb (String c r) KeyDescription). { plain H. cbn [out_ex ex_descr]. unfold as_string_ptr. rewrite (with_steady _ _ _ _ _ str_steady H0). reflexivity. }
    destruct (String.eqb (String c r) KeyStrict). { plain H. cbn [out_ex ex_strict]. unfold as_bool. rewrite (with_steady _ _ _ _ _ bool_steady H0). reflexivity. }
    destruct (String.eqb (String c r) KeyValue). { plain H. rewrite (val_out _ _ _ H0). reflexivity. }
    bind H. rewrite H0. injection H as <-. cbn [bind]. rewrite X. reflexivity.
  Qed.

  Lemma ex_out kd n e : aliases_apart n -> is_alias n = false -> read_ex kd n = Ok e -> read_ex kd (o n) = Ok (out_ex names e).
  Proof.
    intros A Al. unfold read_ex, ex_unmarshal. destruct n as [t v|t l|t l].
    - rewrite (not_alias t v Al). intros H. plain H. pose proof (val_out _ _ _ H0) as H1. rewrite (not_alias t v Al) in H1. rewrite H1. reflexivity.
    - intros H. plain H. pose proof (val_out _ _ _ H0) as H1. change (o (Seq t l)) with (Seq t (map o l)) in *. rewrite H1. reflexivity.
    - intros H. change (o (Map t l)) with (Map t (map oe l)). apply apart_map in A. rewrite Forall_forall in A.
      apply (fold_out (ex_assign kd) (ex_assign kd) (out_ex names) l) with (s := new_ex); [|exact H]. intros s e1 s' I. apply ex_assign_out. apply A. exact I.
  Qed.

  Lemma examples_out kd m n m' : aliases_apart n -> (match n with Map _ l => Forall (fun e => is_alias (snd e) = false) l | _ => True end) ->
    read_examples kd m n = Ok m' -> read_examples kd (out_map (out_ex names) m) (o n) = Ok (out_map (out_ex names) m').
  Proof.
    intros A N. apply amap_out. intros t l e a -> I. rewrite Forall_forall in N. apply apart_map in A. rewrite Forall_forall in A.
    apply ex_out; [apply (A e I)|apply N; exact I].
  Qed.

  (** ** XML settings *)
  Lemma xml_assign_out x p x' : is_alias (fst p) = false -> xml_assign x p = Ok x' -> xml_assign (out_xml names x) (oe p) = Ok (out_xml names x').
  Proof.
    destruct p as [k v]. cbn [fst]. intros Ka H. unfold xml_assign, oe in *. cbn [fst snd] in *.
    destruct (key_same k Ka) as [V [_ [S' Sc]]]. rewrite V, Sc. clear V S' Sc.
    destruct (String.eqb (value k) KeyAttribute). { plain H. unfold as_bool_ptr. cbn [out_xml xml_attr]. rewrite (with_steady _ _ _ _ _ bool_steady H0). reflexivity. }
    destruct (String.eqb (value k) KeyWrapped). { plain H. unfold as_bool_ptr. cbn [out_xml xml_wrap]. rewrite (with_steady _ _ _ _ _ bool_steady H0). reflexivity. }
    destruct (String.eqb (value k) KeyName). { plain H. unfold as_string_ptr. cbn [out_xml xml_name]. rewrite (with_steady _ _ _ _ _ str_steady H0). reflexivity. }
    destruct (String.eqb (value k) KeyNamespace). { plain H. unfold as_string_ptr. cbn [out_xml xml_ns]. rewrite (with_steady _ _ _ _ _ str_steady H0). reflexivity. }
    destruct (String.eqb (value k) KeyPrefix). { plain H. unfold as_string_ptr. cbn [out_xml xml_pref]. rewrite (with_steady _ _ _ _ _ str_steady H0). reflexivity. }
    bind H. rewrite H0. injection H as <-. cbn [bind]. unfold out_xml. cbn. rewrite out_gomap. reflexivity.
  Qed.
  Lemma xml_out n x : aliases_apart n -> xml_unmarshal n new_xml = Ok x -> xml_unmarshal (o n) new_xml = Ok (out_xml names x).
  Proof.
    intros A. unfold xml_unmarshal. destruct n as [t v|t l|t l]; try discriminate. apply apart_map in A. rewrite Forall_forall in A.
    change (o (Map t l)) with (Map t (map oe l)). cbn [map_fold]. intros H.
    apply (fold_out xml_assign xml_assign (out_xml names) l) with (s := new_xml); [|exact H]. intros s e s' I. apply xml_assign_out. apply (A e I).
  Qed.

  (** ** Type definitions *)
  Lemma base_out b k v b' : is_alias k = false -> base_assign b k v = Ok b' -> base_assign (out_base names b) (o k) (o v) = Ok (out_base names b').
  Proof.
    intros Ka H. unfold base_assign in *. destruct (key_same k Ka) as [V _]. rewrite V.
    destruct (String.eqb (value k) KeyType || String.eqb (value k) KeySchema).
    - plain H. rewrite (str_steady _ _ H0). reflexivity.
    - injection H as <-. unfold out_base. cbn. rewrite out_kput. reflexivity.
  Qed.

  Lemma sift_out l d : Forall entry_apart l -> sift_type l = Ok d -> sift_type (map oe l) = Ok d.
  Proof.
    intros A. unfold sift_type.
    assert (G : forall ps it, sift_scan (map oe l) ps it = let '(r, ps', it') := sift_scan l ps it in (option_map o r, ps', it')).
    { induction A as [|[k v] l [Ka _] _ IH]; intros ps it; [reflexivity|]. cbn [map sift_scan]. unfold oe at 1. cbn [fst snd] in *.
      destruct (key_same k Ka) as [V _]. rewrite V. destruct (String.eqb (value k) KeyType || String.eqb (value k) KeySchema); [reflexivity|]. apply IH. }
    rewrite G. destruct (sift_scan l false false) as [[[n|] ps] it]; cbn [option_map]; [|intros H; exact H].
    destruct n as [t v|t l'|t l']; try (intros H; exact H). destruct (alias_or t v) as [E| ->]; [rewrite (not_alias t v E); intros H; exact H|]. discriminate.
  Qed.

  Lemma new_out k : out_type names (new_type k) = new_type k.
  Proof. destruct k; reflexivity. Qed.
  Lemma schema_out s d : out_type names (set_schema s d) = set_schema s (out_type names d).
  Proof. destruct d; reflexivity. Qed.
  Lemma kind_out s : out_type names (type_to_kind s) = type_to_kind s.
  Proof. unfold type_to_kind. repeat match goal with |- context [if ?b then _ else _] => destruct b end; rewrite ?schema_out, ?new_out; reflexivity. Qed.
  Lemma sift_kind l d : sift_type l = Ok d -> out_type names d = d.
  Proof.
    unfold sift_type. destruct (sift_scan l false false) as [[[n|] ps] it].
    - destruct (is_string n); [intros H; injection H as <-; apply kind_out|]. destruct (is_seq n); [discriminate|].
      destruct (node_tag n); try discriminate. intros H; injection H as <-; reflexivity.
    - destruct ps; [|destruct it]; intros H; injection H as <-; reflexivity.
  Qed.

  Lemma enum_out k old n l : read_enum k old n = Ok l -> read_enum k (option_map (map (out_val names)) old) (o n) = Ok (option_map (map (out_val names)) l).
  Proof.
    unfold read_enum. destruct n as [t v|t l0|t l0]; try discriminate. cbn [seq_fold]. change (o (Seq t l0)) with (Seq t (map o l0)). cbn [seq_fold].
    apply (fold_seq_out _ _ (option_map (map (out_val names))) l0). intros s e s' _ H. plain H.
    assert (E : enum_elem k (o e) = Ok (out_val names a)).
    { revert H0. destruct k; cbn [enum_elem]; intros H;
      first [ plain H; first [rewrite (str_steady _ _ H0)|rewrite (bool_steady _ _ H0)|rewrite (int_steady _ _ H0)|rewrite (float_steady _ _ H0)]; reflexivity
            | injection H as <-; reflexivity ]. }
    rewrite E. cbn [bind option_map]. destruct s as [s|]; cbn [opt_list option_map]; [rewrite map_app|]; reflexivity.
  Qed.

  Section Below.
    Variable v : node.
    Hypothesis Below : forall m d, (node_size m <= node_size v)%nat -> aliases_apart m -> hat m = Ok d -> hat (o m) = Ok (out_type names d).
    Hypothesis Apart : aliases_apart v.
    Lemma self_out d : hat v = Ok d -> hat (o v) = Ok (out_type names d).
    Proof. apply Below; [lia|exact Apart]. Qed.
    Lemma in_size t l e : v = Map t l -> In e l -> (node_size (snd e) < node_size v)%nat.
    Proof. intros -> I. destruct e as [k x]. eapply size_map_val. exact I. Qed.
    Lemma in_apart t l e : v = Map t l -> In e l -> aliases_apart (snd e).
    Proof. intros -> I. apply apart_map in Apart. rewrite Forall_forall in Apart. apply (Apart e I). Qed.

    Lemma types_out m m' : DataType.read_types hat m v = Ok m' -> DataType.read_types hat (out_map (out_type names) m) (o v) = Ok (out_map (out_type names) m').
    Proof. apply amap_out. intros t l e a E I. apply Below; [pose proof (in_size t l e E I); lia|eapply in_apart; eassumption]. Qed.
    Lemma properties_out m m' : read_properties hat m v = Ok m' -> read_properties hat (out_map (out_type names) m) (o v) = Ok (out_map (out_type names) m').
    Proof.
      apply amap_out. intros t l e a E I H. bind H. assert (X : hat (o (snd e)) = Ok (out_type names a0)).
      { apply Below; [pose proof (in_size t l e E I); lia|eapply in_apart; eassumption|exact H0]. }
      rewrite X. cbn [bind]. destruct a0 as [b|b x f c s]; [discriminate|]. injection H as <-. reflexivity.
    Qed.

    Lemma facets_out m m' : read_facets hat m v = Ok m' -> read_facets hat (out_map (out_map (out_type names)) m) (o v) = Ok (out_map (out_map (out_type names)) m').
    Proof.
      apply amap_out. intros t l e a E I. change (@anew string dtype) with (out_map (K := string) (out_type names) anew) at 2. unfold DataType.read_types. apply amap_out.
      intros t' l' e' a' E' I'. apply Below.
      - pose proof (in_size t l e E I). destruct e' as [k' x']. cbn [snd]. pose proof (size_map_val t' l' k' x' I'). rewrite <- E' in H0. lia.
      - pose proof (in_apart t l e E I) as A. rewrite E' in A. apply apart_map in A. rewrite Forall_forall in A. apply (A e' I').
    Qed.

    Lemma spec_out s k r : spec_assign hat s k v = Some r ->
      exists r', spec_assign hat (out_spec names (out_type names) s) k (o v) = Some r' /\ forall s', r = Ok s' -> r' = Ok (out_spec names (out_type names) s').
    Proof.
      destruct s; cbn [spec_assign out_spec]; intros H; try discriminate;
      repeat match type of H with (if ?c then _ else _) = _ => destruct c end; try discriminate; injection H as <-;
      (eexists; split; [reflexivity|]; intros s' H; try (injection H as <-; reflexivity); plain H; unfold as_bool, to_uint, as_uint_ptr, as_int64_ptr, as_float64_ptr, as_string_ptr in *;
       first [ rewrite (with_steady _ _ _ _ _ bool_steady H0); reflexivity
             | rewrite (with_steady _ _ _ _ _ int_steady H0); reflexivity
             | rewrite (with_steady _ _ _ _ _ str_steady H0); reflexivity
             | rewrite (with_steady _ _ _ _ _ float_steady H0); reflexivity
             | rewrite (strings_steady _ _ _ H0); reflexivity
             | rewrite (self_out _ H0); reflexivity
             | rewrite (properties_out _ _ H0); reflexivity
             | rewrite date_format_hat_str in *; rewrite (str_steady _ _ H0); reflexivity
             | rewrite integer_format_hat_str in *; rewrite (str_steady _ _ H0); reflexivity
             | rewrite number_format_hat_str in *; rewrite (str_steady _ _ H0); reflexivity ]).
    Qed.
    Lemma spec_none s k : spec_assign hat s k v = None -> spec_assign hat (out_spec names (out_type names) s) k (o v) = None.
    Proof. destruct s; cbn [spec_assign out_spec]; intros H; repeat match type of H with (if ?c then _ else _) = _ => destruct c end; try discriminate; reflexivity. Qed.

    Lemma ext_out b x f k b' x' f' : is_alias k = false -> ext_assign hat b x f k v = Ok (b', x', f') ->
      ext_assign hat (out_base names b) (out_ext names x) (out_map (out_map (out_type names)) f) (o k) (o v) =
      Ok (out_base names b', out_ext names x', out_map (out_map (out_type names)) f').
    Proof.
      intros Ka H. unfold ext_assign in *. destruct (key_same k Ka) as [V [_ [S' _]]]. rewrite V, S'.
      destruct (String.eqb (value k) KeyDisplayName). { bind H. injection H as <- <- <-. unfold as_string_ptr. cbn [out_ext x_display]. rewrite (with_steady _ _ _ _ _ str_steady H0). reflexivity. }
      destruct (String.eqb (value k) KeyDescription). { bind H. injection H as <- <- <-. unfold as_string_ptr. cbn [out_ext x_descr]. rewrite (with_steady _ _ _ _ _ str_steady H0). reflexivity. }
      destruct (String.eqb (value k) KeyFacets). { bind H. injection H as <- <- <-. rewrite (facets_out _ _ H0). reflexivity. }
      destruct (String.eqb (value k) KeyXML). { bind H. injection H as <- <- <-. rewrite (xml_out _ _ Apart H0). reflexivity. }
      bind H. assert (X : (if is_string k then annotations_in (value k) (o v) (x_anns (out_ext names x)) else Ok None) = Ok (option_map (out_map (out_untyped names)) a)).
      { destruct (is_string k); [|injection H0 as <-; reflexivity]. unfold annotations_in in *. destruct (value k) as [|c r]; [discriminate|].
        destruct (Ascii.eqb c "("); [|injection H0 as <-; reflexivity]. plain H0. rewrite (annotation_out _ _ H1). cbn [bind option_map]. rewrite out_mput. reflexivity. }
      rewrite X. cbn [bind]. destruct a as [a|]; cbn [option_map].
      - injection H as <- <- <-. reflexivity.
      - bind H. injection H as <- <- <-. rewrite (base_out _ _ _ _ Ka H1). reflexivity.
    Qed.

    Lemma assign_out d k d' : entry_apart (k, v) -> type_assign hat d (k, v) = Ok d' -> type_assign hat (out_type names d) (o k, o v) = Ok (out_type names d').
    Proof.
      intros [Ka [_ [Al Ex]]] H. cbn [fst snd] in *. unfold type_assign in *. cbn [fst snd] in *. destruct (key_same k Ka) as [V _].
      destruct d as [b|b x f c s]; cbn [out_type]; change (fun d => out_type names d) with (out_type names).
      - plain H. rewrite (base_out _ _ _ _ Ka H0). reflexivity.
      - rewrite V. cbn [out_base b_kind].
        destruct (String.eqb (value k) KeyExample) eqn:E1.
        { destruct (has_example (b_kind b)); [|discriminate]. plain H. apply String.eqb_eq in E1.
          assert (Av : is_alias v = false). { destruct (is_alias v); [|reflexivity]. exfalso. apply (Al eq_refl). rewrite E1. left. reflexivity. }
          rewrite (ex_out _ _ _ Apart Av H0). reflexivity. }
        destruct (String.eqb (value k) KeyExamples) eqn:E2.
        { plain H. apply String.eqb_eq in E2. cbn [out_common c_examples]. rewrite (examples_out _ _ _ _ Apart (Ex E2) H0). reflexivity. }
        destruct (String.eqb (value k) KeyEnum). { plain H. cbn [out_common c_enum]. rewrite (enum_out _ _ _ _ H0). reflexivity. }
        destruct (String.eqb (value k) KeyRequired). { plain H. unfold as_bool. cbn [out_ext x_required]. rewrite (with_steady _ _ _ _ _ bool_steady H0). reflexivity. }
        destruct (spec_assign hat s (value k) v) as [r|] eqn:E3.
        + plain H. destruct (spec_out _ _ _ E3) as [r' [R1 R2]]. rewrite R1, (R2 _ H0). reflexivity.
        + rewrite (spec_none _ _ E3). bind H. destruct a as [[b' x'] f']. injection H as <-. rewrite (ext_out _ _ _ _ _ _ _ Ka H0). reflexivity.
    Qed.
  End Below.

  Theorem hat_out n : forall d, aliases_apart n -> hat n = Ok d -> hat (o n) = Ok (out_type names d).
  Proof.
    induction n as [n IH] using node_strong_ind. intros d A H. rewrite hat_eq in H |- *. unfold hat_body in H |- *.
    destruct n as [t v|t l|t l].
    - destruct (alias_or t v) as [E| ->]; [|discriminate]. rewrite (not_alias t v E). destruct (is_string (Scal t v)); [injection H as <-; rewrite kind_out; reflexivity|].
      destruct t; try discriminate. injection H as <-. reflexivity.
    - change (is_string (o (Seq t l))) with (is_string (Seq t l)). destruct (is_string (Seq t l)); [injection H as <-; cbn [value]; rewrite kind_out; reflexivity|discriminate].
    - change (o (Map t l)) with (Map t (map oe l)). change (is_string (Map t (map oe l))) with (is_string (Map t l)).
      destruct (is_string (Map t l)); [injection H as <-; cbn [value]; rewrite kind_out; reflexivity|].
      bind H. pose proof (apart_map _ _ A) as Al. rewrite (sift_out _ _ Al H0). cbn [bind]. rewrite <- (sift_kind _ _ H0).
      rewrite Forall_forall in Al. apply (fold_out (type_assign hat) (type_assign hat) (out_type names) l); [|exact H].
      intros s [k v] s' I. unfold oe. cbn [fst snd]. pose proof (size_map_val t l k v I) as Sz. apply assign_out.
      + intros m d' Hm. apply IH. lia.
      + apply (Al _ I).
      + apply (Al _ I).
  Qed.

  (** ** Documents and libraries *)
  Lemma doc_out n d d' : aliases_apart n -> doc_unmarshal n d = Ok d' -> doc_unmarshal (o n) (out_doc names d) = Ok (out_doc names d').
  Proof.
    intros A. unfold doc_unmarshal. destruct n as [t v|t l|t l]; try discriminate. apply apart_map in A. rewrite Forall_forall in A.
    change (o (Map t l)) with (Map t (map oe l)). cbn [map_fold]. apply (fold_out doc_assign doc_assign (out_doc names) l).
    intros s [k v] s' I H. destruct (A _ I) as [Ka [_ [Al _]]]. unfold doc_assign, oe in *. cbn [fst snd] in *. destruct (key_same k Ka) as [V [_ [_ Sc]]]. rewrite V, Sc.
    destruct (String.eqb (value k) KeyTitle) eqn:E1.
    { injection H as <-. apply String.eqb_eq in E1. assert (Av : is_alias v = false). { destruct (is_alias v); [|reflexivity]. exfalso. apply (Al eq_refl). rewrite E1. right. left. reflexivity. }
      destruct (key_same v Av) as [-> _]. reflexivity. }
    destruct (String.eqb (value k) KeyContent) eqn:E2.
    { injection H as <-. apply String.eqb_eq in E2. assert (Av : is_alias v = false). { destruct (is_alias v); [|reflexivity]. exfalso. apply (Al eq_refl). rewrite E2. right. right. left. reflexivity. }
      destruct (key_same v Av) as [-> _]. reflexivity. }
    bind H. rewrite H0. injection H as <-. cbn [bind]. unfold out_doc. cbn. rewrite out_kput. reflexivity.
  Qed.

  Lemma docs_out n old l : aliases_apart n -> read_docs n old = Ok l -> read_docs (o n) (option_map (map (out_doc names)) old) = Ok (option_map (map (out_doc names)) l).
  Proof.
    intros A. unfold read_docs. destruct n as [t v|t l0|t l0]; try discriminate. apply apart_seq in A. rewrite Forall_forall in A.
    change (o (Seq t l0)) with (Seq t (map o l0)). cbn [seq_fold]. apply (fold_seq_out _ _ (option_map (map (out_doc names))) l0).
    intros s e s' I H. unfold read_doc in *. plain H. pose proof (doc_out _ _ _ (A e I) H0) as D. change (out_doc names new_doc) with new_doc in D. rewrite D.
    cbn [bind option_map]. destruct s as [s|]; cbn [option_map]; [rewrite map_app|]; reflexivity.
  Qed.

  Lemma media_out n old l : read_media n old = Ok l -> read_media (o n) old = Ok l.
  Proof.
    unfold read_media. destruct (is_string n) eqn:E.
    - assert (Al : is_alias n = false). { destruct n as [t v|t l0|t l0]; try reflexivity. destruct t; try reflexivity. discriminate. }
      destruct (key_same n Al) as [V [_ [S' _]]]. rewrite V, S', E. intros H; exact H.
    - intros H. destruct n as [t v|t l0|t l0]; try discriminate. change (is_string (o (Seq t l0))) with (is_string (Seq t l0)). rewrite E. apply strings_steady. exact H.
  Qed.

  Lemma dtypes_out n m m' : aliases_apart n -> Api.read_types m n = Ok m' -> Api.read_types (out_map (out_type names) m) (o n) = Ok (out_map (out_type names) m').
  Proof.
    intros A. apply amap_out. intros t l e a -> I. apply apart_map in A. rewrite Forall_forall in A. apply hat_out. apply (A e I).
  Qed.
  Lemma strs_out n m m' : read_strings m n = Ok m' -> read_strings m (o n) = Ok m'.
  Proof.
    assert (I : forall m : amap string string, out_map (fun s => s) m = m).
    { intros [l b]. unfold out_map. cbn [ents oord]. f_equal. induction l as [|[k x] l IH]; [reflexivity|]. cbn [map fst snd]. rewrite IH. reflexivity. }
    intros H. rewrite <- (I m), <- (I m'). revert H. apply (amap_out to_str to_str (fun s => s)). intros t l e a _ _. apply str_steady.
  Qed.

  Lemma api_assign_out a p a' : entry_apart p -> api_assign a p = Ok a' -> api_assign (out_api names a) (oe p) = Ok (out_api names a').
  Proof.
    destruct p as [k v]. intros [Ka [Apart _]] H. unfold api_assign, oe in *. cbn [fst snd] in *. destruct (key_same k Ka) as [V [_ [S' Sc]]]. rewrite V, S', Sc. clear V S' Sc.
    assert (X : forall s, out_api names (a_set_extra (kput s (GNode v) (a_extra a)) a) = a_set_extra (kput s (GNode (o v)) (a_extra (out_api names a))) (out_api names a)).
    { intros s. unfold out_api. cbn. rewrite out_kput. reflexivity. }
    destruct (negb (is_string k)). { bind H. rewrite H0. injection H as <-. cbn [bind]. rewrite X. reflexivity. }
    destruct (value k) as [|c r]; [discriminate|]. set (key := String c r) in *. clearbody key.
    destruct (Ascii.eqb c "("). { plain H. rewrite (annotation_out _ _ H0). cbn [bind]. unfold out_api. cbn. rewrite out_mput. reflexivity. }
    destruct (Ascii.eqb c "/"). { injection H as <-. unfold out_api. cbn. unfold out_untyped. rewrite out_mput. reflexivity. }
    repeat match type of H with (if ?b then _ else _) = _ => destruct b end;
      try (plain H;
        first [ unfold as_string, as_string_ptr; cbn [out_api a_title a_version a_baseURI a_description]; rewrite (with_steady _ _ _ _ _ str_steady H0); reflexivity
              | cbn [out_api a_protocols a_securedBy]; rewrite (strings_steady _ _ _ H0); reflexivity
              | cbn [out_api a_mediaType]; rewrite (media_out _ _ _ H0); reflexivity
              | cbn [out_api a_documentation]; rewrite (docs_out _ _ _ Apart H0); reflexivity
              | cbn [out_api a_uses]; rewrite (strs_out _ _ _ H0); reflexivity
              | cbn [out_api a_securitySchemes a_baseURIParameters a_traits a_annotationTypes a_resourceTypes]; unfold read_untyped; rewrite (untyped_out _ _ _ H0); reflexivity
              | cbn [out_api a_types]; rewrite (dtypes_out _ _ _ Apart H0); reflexivity ]; fail).
    bind H. rewrite H0. injection H as <-. cbn [bind]. rewrite X. reflexivity.
  Qed.

  Theorem api_out n a : aliases_apart n -> api_unmarshal n new_api = Ok a -> api_unmarshal (o n) new_api = Ok (out_api names a).
  Proof.
    intros A. unfold api_unmarshal. destruct n as [t v|t l|t l]; try discriminate. apply apart_map in A. rewrite Forall_forall in A.
    change (o (Map t l)) with (Map t (map oe l)). cbn [map_fold]. intros H.
    apply (fold_out api_assign api_assign (out_api names) l) with (s := new_api); [|exact H]. intros s e s' I. apply api_assign_out. apply (A e I).
  Qed.

  Lemma lib_assign_out a p a' : entry_apart p -> lib_assign a p = Ok a' -> lib_assign (out_lib names a) (oe p) = Ok (out_lib names a').
  Proof.
    destruct p as [k v]. intros [Ka [Apart _]] H. unfold lib_assign, oe in *. cbn [fst snd] in *. destruct (key_same k Ka) as [V [_ [S' Sc]]]. rewrite V, S', Sc. clear V S' Sc.
    assert (X : forall a', (do s <- to_scalar k; Ok (l_set_extra (kput s (GNode v) (l_extra a)) a)) = Ok a' ->
      (do s <- to_scalar k; Ok (l_set_extra (kput s (GNode (o v)) (l_extra (out_lib names a))) (out_lib names a))) = Ok (out_lib names a')).
    { intros a1 H1. bind H1. rewrite H0. injection H1 as <-. cbn [bind]. unfold out_lib. cbn. rewrite out_kput. reflexivity. }
    repeat match type of H with (if String.eqb _ _ then _ else _) = _ => destruct (String.eqb _ _) | (if String.eqb _ _ || String.eqb _ _ then _ else _) = _ => destruct (_ || _) end;
      try (plain H;
        first [ unfold as_string_ptr; cbn [out_lib l_usage]; rewrite (with_steady _ _ _ _ _ str_steady H0); reflexivity
              | cbn [out_lib l_uses]; rewrite (strs_out _ _ _ H0); reflexivity
              | cbn [out_lib l_securitySchemes l_traits l_resourceTypes]; unfold read_untyped; rewrite (untyped_out _ _ _ H0); reflexivity
              | cbn [out_lib l_annotations]; unfold read_annotations in *;
                rewrite (amap_out read_annotation read_annotation (out_untyped names) _ (fun t l e a _ _ => annotation_out (snd e) a) _ _ H0); reflexivity
              | cbn [out_lib l_types]; rewrite (dtypes_out _ _ _ Apart H0); reflexivity ]; fail).
    destruct (is_string k); [|apply X; exact H]. destruct (value k) as [|c r]; [discriminate|].
    destruct (Ascii.eqb c "("); [|apply X; exact H]. plain H. rewrite (annotation_out _ _ H0). cbn [bind]. unfold out_lib. cbn. rewrite out_mput. reflexivity.
  Qed.

  Theorem lib_out_ok n a : aliases_apart n -> lib_unmarshal n new_library = Ok a -> lib_unmarshal (o n) new_library = Ok (out_lib names a).
  Proof.
    intros A. unfold lib_unmarshal. destruct n as [t v|t l|t l]; try discriminate. apply apart_map in A. rewrite Forall_forall in A.
    change (o (Map t l)) with (Map t (map oe l)). cbn [map_fold]. intros H.
    apply (fold_out lib_assign lib_assign (out_lib names) l) with (s := new_library); [|exact H]. intros s e s' I. apply lib_assign_out. apply (A e I).
  Qed.
End Out.
