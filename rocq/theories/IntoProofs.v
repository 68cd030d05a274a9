(** Reading into an object that holds something already (C73), and what a reading that failed leaves (C74). *)
From Coq Require Import SpecFloat.
From Verif Require Import Base Num OMap OMapSpec Keys Yaml Values Assign Formats Meta Out Xml Example Doc DataType Marshal Api Library
  AssignProofs TypeFacts Fields FieldProofs Segs Lens Parts ApiFields MapFacts FacetSpec FacetProofs DocProofs TypeWrite OrderProofs Into IntoSpec.

(** ** The readers that keep the state agree with those that do not *)

Lemma whole_run {A} (a : A) r : run_assign (whole a r) = r.
Proof. destruct r; reflexivity. Qed.

Lemma inside_run {A B} (set : B -> A) r : run_assign (inside set r) = do x <- run_assign r; Ok (set x).
Proof. destruct r as [x [[]| |]]; reflexivity. Qed.

Lemma loop_run {A S} (f : S -> A -> S * res unit) (g : S -> A -> res S) : (forall s a, run_assign (f s a) = g s a) ->
  forall l s, run_assign (loop f s l) = fold_res g s l.
Proof.
  intros H l. induction l as [|a l IH]; intros s; [reflexivity|]. cbn [loop fold_res]. rewrite <- H. destruct (f s a) as [s' [[]| |]]; cbn; auto.
Qed.

Lemma fill_run {V} (dec : node -> res V) n m : run_assign (fill dec n m) = read_amap dec m n.
Proof.
  destruct n; try reflexivity. unfold fill, read_map. cbn [map_for_each]. apply loop_run. intros s e. unfold read_pair, read_amap_pair, put_in.
  destruct (to_str (fst e)); try reflexivity. cbn. destruct (dec (snd e)); reflexivity.
Qed.

Section Run.
  Context {F : FloatIO}.

  Lemma doc_run n d : run_assign (doc_into n d) = doc_unmarshal n d.
  Proof. destruct n; try reflexivity. apply loop_run. intros. apply whole_run. Qed.

  Lemma xml_run n x : run_assign (xml_into n x) = xml_unmarshal n x.
  Proof. destruct n; try reflexivity. apply loop_run. intros. apply whole_run. Qed.

  Lemma ex_val_run kd n e : run_assign (ex_val_into kd n e) = do v <- ex_val kd n; Ok (ex_set_value v e).
  Proof. unfold ex_val_into. destruct kd; try apply whole_run. destruct n; [reflexivity|apply whole_run|reflexivity]. Qed.

  Lemma ex_val_outcome kd n a b : snd (ex_val_into kd n a) = snd (ex_val_into kd n b).
  Proof. unfold ex_val_into. destruct kd; try (destruct (ex_val _ n); reflexivity). destruct n; reflexivity. Qed.

  Lemma ex_val_value kd n a : snd (ex_val_into kd n a) = Ok tt -> exists v, ex_val kd n = Ok v /\ fst (ex_val_into kd n a) = ex_set_value v a.
  Proof.
    unfold ex_val_into. intros H. destruct kd; try (destruct (ex_val _ n) as [v| |]; [exists v; split; reflexivity|discriminate..]).
    destruct n; try discriminate. eexists. split; reflexivity.
  Qed.

  Lemma ex_assign_run kd e p : run_assign (ex_assign_into kd e p) = ex_assign kd e p.
  Proof.
    unfold ex_assign_into. destruct (is_string (fst p) && String.eqb (value (fst p)) KeyValue) eqn:E; [|apply whole_run].
    apply andb_prop in E as [E1 E2]. apply String.eqb_eq in E2. rewrite ex_val_run. unfold ex_assign. rewrite E1, E2. reflexivity.
  Qed.

  Lemma ex_run kd n e : run_assign (ex_into kd n e) = ex_unmarshal kd n e.
  Proof.
    destruct n as [t v|t l|t l]; try apply ex_val_run. unfold ex_into, ex_unmarshal. apply loop_run. intros s p. apply ex_assign_run.
  Qed.

  Lemma enum_run kd n o : run_assign (enum_in kd n o) = read_enum kd o n.
  Proof. destruct n; try reflexivity. apply loop_run. intros. apply whole_run. Qed.

  Lemma docs_run n o : run_assign (docs_in n o) = read_docs n o.
  Proof. destruct n; try reflexivity. apply loop_run. intros. apply whole_run. Qed.

  Lemma type_assign_run d e : run_assign (type_assign_into d e) = type_assign hat d e.
  Proof.
    destruct d as [b|b x f c s]; [apply whole_run|]. unfold type_assign_into.
    destruct (String.eqb (value (fst e)) KeyExamples) eqn:E1.
    { rewrite inside_run, fill_run. unfold type_assign. apply String.eqb_eq in E1. rewrite E1. cbn. unfold read_examples. reflexivity. }
    destruct (String.eqb (value (fst e)) KeyEnum) eqn:E2.
    { rewrite inside_run, enum_run. unfold type_assign. apply String.eqb_eq in E2. rewrite E2. cbn. reflexivity. }
    destruct (String.eqb (value (fst e)) KeyFacets) eqn:E3.
    { rewrite inside_run, fill_run. unfold type_assign. apply String.eqb_eq in E3. rewrite E3. destruct s; cbn; unfold ext_assign; rewrite E3; cbn;
        unfold read_facets; match goal with |- context [read_amap ?d ?m ?n] => destruct (read_amap d m n) end; reflexivity. }
    destruct s; try apply whole_run. destruct (String.eqb (value (fst e)) KeyProperties) eqn:E4; [|apply whole_run].
    rewrite inside_run, fill_run. unfold type_assign. apply String.eqb_eq in E4. rewrite E4. cbn. unfold read_properties.
    match goal with |- context [read_amap ?d ?m ?n] => destruct (read_amap d m n) end; reflexivity.
  Qed.

  Lemma type_run t l d : t <> TStr -> run_assign (type_into (Map t l) d) = fold_res (type_assign hat) d l.
  Proof.
    intros H. unfold type_into. replace (is_string (Map t l)) with false by (destruct t; try reflexivity; congruence). apply loop_run. apply type_assign_run.
  Qed.

  Ltac by_key E := cbn [orb]; apply String.eqb_eq in E; rewrite inside_run; unfold untyped; rewrite ?fill_run, ?docs_run; rewrite ?E; reflexivity.

  Lemma api_assign_run a e : run_assign (api_assign_into a e) = api_assign a e.
  Proof.
    unfold api_assign_into. destruct (is_string (fst e)) eqn:S; cbn [negb]; [|apply whole_run].
    unfold api_assign. rewrite S. cbn [negb].
    destruct (String.eqb (value (fst e)) KeyDocumentation) eqn:E1; [by_key E1|].
    destruct (String.eqb (value (fst e)) KeyUses) eqn:E2; [by_key E2|].
    destruct (String.eqb (value (fst e)) KeySecuritySchemes) eqn:E3; [by_key E3|].
    destruct (String.eqb (value (fst e)) KeyBaseURIParams) eqn:E4; [by_key E4|].
    destruct (String.eqb (value (fst e)) KeyTraits) eqn:E5; [by_key E5|].
    destruct (String.eqb (value (fst e)) KeyAnnotationTypes) eqn:E6; [by_key E6|].
    destruct (String.eqb (value (fst e)) KeyResourceTypes) eqn:E7; [by_key E7|].
    destruct (String.eqb (value (fst e)) KeyTypes) eqn:E8; [by_key E8|].
    destruct (String.eqb (value (fst e)) KeySchemas) eqn:E9; [by_key E9|]. cbn [orb]. apply whole_run.
  Qed.

  Lemma api_run n a : run_assign (api_into n a) = api_unmarshal n a.
  Proof. destruct n; try reflexivity. apply loop_run. apply api_assign_run. Qed.

  Lemma lib_assign_run a e : run_assign (lib_assign_into a e) = lib_assign a e.
  Proof.
    unfold lib_assign_into. unfold lib_assign.
    destruct (String.eqb (value (fst e)) KeyAnnotationTypes) eqn:E1; [by_key E1|].
    destruct (String.eqb (value (fst e)) KeyResourceTypes) eqn:E2; [by_key E2|].
    destruct (String.eqb (value (fst e)) KeyTypes) eqn:E3; [by_key E3|].
    destruct (String.eqb (value (fst e)) KeySchemas) eqn:E4; [by_key E4|]. cbn [orb].
    destruct (String.eqb (value (fst e)) KeyTraits) eqn:E5; [by_key E5|].
    destruct (String.eqb (value (fst e)) KeyUses) eqn:E6; [by_key E6|].
    destruct (String.eqb (value (fst e)) KeySecuritySchemes) eqn:E7; [by_key E7|]. apply whole_run.
  Qed.

  Lemma lib_run n a : run_assign (lib_into n a) = lib_unmarshal n a.
  Proof. destruct n; try reflexivity. apply loop_run. apply lib_assign_run. Qed.
End Run.

(** ** One over the other *)

Section Overlay.
  Context {S E : Type}.
  Variable assign : S -> E -> res S.
  Variable over : list E -> S -> S -> S -> Prop.
  Variables a b0 : S.
  Hypothesis over_nil : over [] a b0 a.
  Hypothesis over_step : forall l b c e, over l a b c ->
    match assign b e with
    | Ok b' => exists c', assign c e = Ok c' /\ over (l ++ [e]) a b' c'
    | Err => assign c e = Err
    | Panic => assign c e = Panic
    end.

  Lemma overlay_fold l :
    match fold_res assign b0 l with
    | Ok b => exists c, fold_res assign a l = Ok c /\ over l a b c
    | Err => fold_res assign a l = Err
    | Panic => fold_res assign a l = Panic
    end.
  Proof.
    induction l as [|e l IH] using rev_ind; [exists a; auto|]. rewrite !fold_res_app. destruct (fold_res assign b0 l) as [b| |]; cbn.
    - destruct IH as [c [-> Hc]]. cbn. rewrite !bind_ret. specialize (over_step l b c e Hc). destruct (assign b e) as [b'| |]; cbn; auto.
    - rewrite IH. reflexivity.
    - rewrite IH. reflexivity.
  Qed.
End Overlay.

(** The same about a reader that keeps the state. *)
Lemma overlay_run {S} (into : node -> S -> S * res unit) (assign : S -> node * node -> res S) over a b0 t l :
  (forall s, run_assign (into (Map t l) s) = fold_res assign s l) ->
  match fold_res assign b0 l with
  | Ok b => exists c, fold_res assign a l = Ok c /\ over l a b c
  | Err => fold_res assign a l = Err
  | Panic => fold_res assign a l = Panic
  end ->
  snd (into (Map t l) a) = snd (into (Map t l) b0) /\
  (snd (into (Map t l) a) = Ok tt -> over l a (fst (into (Map t l) b0)) (fst (into (Map t l) a))).
Proof.
  intros H. rewrite <- !H. destruct (into (Map t l) b0) as [b [[]| |]]; cbn.
  - intros [c [Hc O]]. destruct (into (Map t l) a) as [c' [[]| |]]; cbn in Hc; try discriminate. injection Hc as <-. auto.
  - destruct (into (Map t l) a) as [c' [[]| |]]; cbn; try discriminate. split; [reflexivity|discriminate].
  - destruct (into (Map t l) a) as [c' [[]| |]]; cbn; try discriminate. split; [reflexivity|discriminate].
Qed.

Lemma merged_nil {K V} keq (m : amap K V) b : merged keq m (mkMap [] b) = m.
Proof. destruct m as [l o]. unfold merged. cbn. rewrite app_nil_r. f_equal. induction l as [|e l IH]; [reflexivity|]. cbn. rewrite IH. reflexivity. Qed.

Lemma existsb_filter {A} (p q : A -> bool) l : existsb p (filter q l) = existsb (fun x => q x && p x) l.
Proof. induction l as [|x l IH]; [reflexivity|]. cbn. destruct (q x); cbn; rewrite IH; reflexivity. Qed.

Lemma merged_put {K V} keq (sym : forall x y : K, keq x y = keq y x) (trans : forall x y z : K, keq x y = true -> keq y z = true -> keq x z = true)
  (old new : amap K V) k v :
  mkMap (sput keq k v (ents (merged keq old new))) (oord old) = merged keq old (mkMap (sput keq k v (ents new)) (oord new)).
Proof.
  unfold merged, sput, sdelete. cbn. f_equal. rewrite filter_app, <- app_assoc. f_equal.
  induction (ents old) as [|e l IH]; [reflexivity|]. cbn [filter].
  assert (X : negb (existsb (fun e' => keq (fst e') (fst e)) (filter (other keq k) (ents new) ++ [(k, v)])) =
              negb (existsb (fun e' => keq (fst e') (fst e)) (ents new)) && other keq k e).
  { rewrite existsb_app. cbn. rewrite orb_false_r. unfold other at 2. rewrite (sym (fst e) k). destruct (keq k (fst e)) eqn:Ke; [rewrite orb_true_r, andb_false_r; reflexivity|].
    rewrite orb_false_r, andb_true_r. f_equal. clear IH. induction (ents new) as [|x r IH]; [reflexivity|]. cbn. unfold other at 1. destruct (keq (fst x) k) eqn:Y; cbn.
    - rewrite IH. destruct (keq (fst x) (fst e)) eqn:Z; [|reflexivity]. exfalso. rewrite sym in Y. pose proof (trans _ _ _ Y Z). congruence.
    - rewrite IH. reflexivity. }
  rewrite X. destruct (negb (existsb (fun e' => keq (fst e') (fst e)) (ents new))); cbn; [|exact IH]. destruct (other keq k e); [|exact IH]. f_equal. exact IH.
Qed.

Lemma merged_mput {V} k (v : V) old new : mput k v (merged_s old new) = merged_s old (mput k v new).
Proof. exact (merged_put String.eqb String.eqb_sym seq_trans old new k v). Qed.

Lemma merged_kput {V} k (v : V) old new : kput k v (merged_g old new) = merged_g old (kput k v new).
Proof. exact (merged_put gkey_eqb gkey_eqb_sym gkey_eqb_trans old new k v). Qed.

Lemma merged_read {V} (dec : node -> res V) n old new : read_amap dec (merged_s old new) n = do m <- read_amap dec new n; Ok (merged_s old m).
Proof.
  destruct n as [| |t l]; try reflexivity. unfold read_amap, map_fold. revert new. induction l as [|e l IH]; intros new; [reflexivity|]. cbn [fold_res].
  unfold read_amap_pair at 1 3. destruct (to_str (fst e)); try reflexivity. cbn [bind]. destruct (dec (snd e)); try reflexivity. cbn [bind].
  rewrite merged_mput. apply IH.
Qed.

Lemma newer_none {A} (o : option A) : newer o None = o.
Proof. reflexivity. Qed.

Section Over.
  Context {F : FloatIO}.

  Lemma says_snoc s l e : says s (l ++ [e]) = says s l || (is_string (fst e) && String.eqb (value (fst e)) s).
  Proof. unfold says. rewrite existsb_app. cbn. rewrite orb_false_r. reflexivity. Qed.
  Lemma spells_snoc s l e : spells s (l ++ [e]) = spells s l || String.eqb (value (fst e)) s.
  Proof. unfold spells. rewrite existsb_app. cbn. rewrite orb_false_r. reflexivity. Qed.

  (** *** API documents *)

  Definition aover (l : list (node * node)) (f : afield) : aty f -> aty f -> aty f :=
    match f with
    | ATitle => fun old new => if says "title" l then new else old
    | AVersion | ABaseURI | ADescription => newer
    | AProtocols | ASecuredBy => newer
    | AMediaType => fun old new => if adds_media l then longer old new else new
    | ADocumentation => longer
    | AUses => merged_s
    | ASecuritySchemes | ABaseURIParameters | ATraits | AAnnotationTypes | AResourceTypes | AResources => merged_s
    | AAnnotations => merged_s
    | AExtra => merged_g
    | ATypes => merged_s
    end.

  Lemma api_over_fields l a b c : (forall f, aget f c = aover l f (aget f a) (aget f b)) <-> api_over l a b c.
  Proof.
    split.
    - intros H. unfold api_over. repeat split;
        [exact (H ATitle)|exact (H AVersion)|exact (H ABaseURI)|exact (H ADescription)|exact (H AProtocols)|exact (H ASecuredBy)|exact (H AMediaType)
        |exact (H ADocumentation)|exact (H AUses)|exact (H ASecuritySchemes)|exact (H ABaseURIParameters)|exact (H ATraits)|exact (H AAnnotationTypes)
        |exact (H AResourceTypes)|exact (H AAnnotations)|exact (H AResources)|exact (H ATypes)|exact (H AExtra)].
    - unfold api_over. intros H f. destruct f; cbn; tauto.
  Qed.

  Lemma adds_media_snoc l e : adds_media (l ++ [e]) = adds_media l && (negb (is_string (fst e) && String.eqb (value (fst e)) "mediaType") || is_string (snd e)).
  Proof. unfold adds_media. rewrite forallb_app. cbn. rewrite andb_true_r. reflexivity. Qed.

  Lemma string_list_any n (o o' : option (list string)) : run_assign (as_string_list n o) = run_assign (as_string_list n o').
  Proof. unfold as_string_list. destruct (seq_for_each string_list_step [] n) as [tmp [[]| |]]; reflexivity. Qed.

  Lemma string_list_some n (o : option (list string)) : match run_assign (as_string_list n o) with Ok v => exists l, v = Some l | _ => True end.
  Proof. unfold as_string_list. destruct (seq_for_each string_list_step [] n) as [tmp [[]| |]]; cbn; eauto. Qed.

  (** Where a known key goes. *)
  Lemma api_target_named e s f : In (s, f) api_keys -> is_string (fst e) && String.eqb (value (fst e)) s = true -> api_target e = Some f.
  Proof.
    intros H. rewrite andb_true_iff, String.eqb_eq. intros [H1 H2]. unfold api_target. rewrite H1, H2. cbn in H.
    repeat destruct H as [H|H]; try contradiction; injection H as <- <-; reflexivity.
  Qed.

  Lemma api_target_title e : api_target e = Some ATitle -> is_string (fst e) && String.eqb (value (fst e)) "title" = true.
  Proof.
    unfold api_target. destruct (is_string (fst e)); [|discriminate]. destruct (value (fst e)) as [|c r] eqn:Ev; [discriminate|].
    destruct (Ascii.eqb c "("); [discriminate|]. destruct (Ascii.eqb c "/"); [discriminate|]. rewrite <- Ev. unfold api_keys. cbn [look].
    repeat match goal with |- context [String.eqb (value (fst e)) ?s] => destruct (String.eqb (value (fst e)) s); [reflexivity||discriminate|] end. discriminate.
  Qed.

  Lemma api_target_media e : api_target e = Some AMediaType -> is_string (fst e) && String.eqb (value (fst e)) "mediaType" = true.
  Proof.
    unfold api_target. destruct (is_string (fst e)); [|discriminate]. destruct (value (fst e)) as [|c r] eqn:Ev; [discriminate|].
    destruct (Ascii.eqb c "("); [discriminate|]. destruct (Ascii.eqb c "/"); [discriminate|]. rewrite <- Ev. unfold api_keys. cbn [look].
    repeat match goal with |- context [String.eqb (value (fst e)) ?s] => destruct (String.eqb (value (fst e)) s); [reflexivity||discriminate|] end. discriminate.
  Qed.

  Lemma docs_longer n old new : read_docs n (longer old new) = do v <- read_docs n new; Ok (longer old v).
  Proof.
    destruct n as [|t l|]; try reflexivity. unfold read_docs, seq_fold. revert new. induction l as [|x l IH]; intros new; [reflexivity|]. cbn [fold_res].
    unfold read_doc at 1 3. destruct (doc_unmarshal x new_doc) as [d| |]; try reflexivity. cbn [bind]. rewrite <- IH. f_equal.
    destruct old as [old|], new as [new|]; cbn; rewrite ?app_assoc; reflexivity.
  Qed.

  Lemma api_step_over l e f old new : api_target e = Some f ->
    api_step f (aover l f old new) e = do v <- api_step f new e; Ok (aover (l ++ [e]) f old v).
  Proof.
    intros T. destruct f; cbn [aover api_step] in *.
    - unfold as_string. rewrite !run_assign_with. destruct (to_str (snd e)); try reflexivity. cbn. rewrite says_snoc, (api_target_title e T), orb_true_r. reflexivity.
    - unfold as_string_ptr. rewrite !run_assign_with. destruct (to_str (snd e)); reflexivity.
    - unfold as_string_ptr. rewrite !run_assign_with. destruct (to_str (snd e)); reflexivity.
    - unfold as_string_ptr. rewrite !run_assign_with. destruct (to_str (snd e)); reflexivity.
    - rewrite (string_list_any (snd e) _ new). pose proof (string_list_some (snd e) new) as X.
      destruct (run_assign (as_string_list (snd e) new)); try reflexivity. destruct X as [x ->]. reflexivity.
    - rewrite adds_media_snoc, (api_target_media e T). cbn [negb orb]. unfold read_media. destruct (is_string (snd e)).
      + rewrite andb_true_r. cbn. destruct (adds_media l); [|reflexivity]. destruct old as [old|], new as [new|]; cbn; rewrite ?app_assoc; reflexivity.
      + rewrite andb_false_r. rewrite (string_list_any (snd e) _ new). destruct (run_assign (as_string_list (snd e) new)); reflexivity.
    - apply docs_longer.
    - rewrite (string_list_any (snd e) _ new). pose proof (string_list_some (snd e) new) as X.
      destruct (run_assign (as_string_list (snd e) new)); try reflexivity. destruct X as [x ->]. reflexivity.
    - apply merged_read.
    - apply merged_read.
    - apply merged_read.
    - apply merged_read.
    - apply merged_read.
    - apply merged_read.
    - destruct (read_annotation (snd e)); try reflexivity. cbn. rewrite merged_mput. reflexivity.
    - destruct (to_scalar (fst e)); try reflexivity. cbn. rewrite merged_kput. reflexivity.
    - cbn. rewrite merged_mput. reflexivity.
    - apply merged_read.
  Qed.

  Lemma aover_other l e f g old new : api_target e = Some f -> f <> g -> aover (l ++ [e]) g old new = aover l g old new.
  Proof.
    intros T N. destruct g; try reflexivity; cbn [aover].
    - rewrite says_snoc. destruct (is_string (fst e) && String.eqb (value (fst e)) "title") eqn:X; [|rewrite orb_false_r; reflexivity].
      rewrite (api_target_named e "title" ATitle) in T by (auto; cbn; tauto). congruence.
    - rewrite adds_media_snoc. destruct (is_string (fst e) && String.eqb (value (fst e)) "mediaType") eqn:X; [|cbn; rewrite andb_true_r; reflexivity].
      rewrite (api_target_named e "mediaType" AMediaType) in T by (auto; cbn; tauto). congruence.
  Qed.

  Lemma api_overlay a l :
    match fold_res api_assign new_api l with
    | Ok b => exists c, fold_res api_assign a l = Ok c /\ api_over l a b c
    | Err => fold_res api_assign a l = Err
    | Panic => fold_res api_assign a l = Panic
    end.
  Proof.
    apply (overlay_fold api_assign api_over).
    - apply api_over_fields. intros f. destruct f; cbn; try reflexivity; symmetry; exact (merged_nil _ _ false).
    - clear l. intros l b c e H. rewrite <- api_over_fields in H. rewrite !api_assign_step. destruct (api_target e) as [f|] eqn:T; [|reflexivity].
      rewrite H, (api_step_over l e f _ _ T). destruct (api_step f (aget f b) e) as [v| |]; try reflexivity. cbn [bind].
      eexists. split; [reflexivity|]. apply api_over_fields. intros g. destruct (afield_dec f g) as [<-|N].
      + rewrite !aget_aset_same. reflexivity.
      + rewrite !aget_aset_other by exact N. rewrite H. symmetry. apply (aover_other l e f g _ _ T N).
  Qed.

  Lemma api_into_over t l a :
    snd (api_into (Map t l) a) = snd (api_into (Map t l) new_api) /\
    (snd (api_into (Map t l) a) = Ok tt -> api_over l a (fst (api_into (Map t l) new_api)) (fst (api_into (Map t l) a))).
  Proof. exact (overlay_run api_into api_assign api_over a new_api t l (api_run (Map t l)) (api_overlay a l)). Qed.

  (** *** Libraries *)

  Definition lover (f : lfield) : lty f -> lty f -> lty f :=
    match f with
    | LUsage => newer
    | LUses => merged_s
    | LSecuritySchemes | LTraits | LAnnotationTypes | LResourceTypes => merged_s
    | LAnnotations => merged_s
    | LExtra => merged_g
    | LTypes => merged_s
    end.

  Lemma lib_over_fields a b c : (forall f, lget f c = lover f (lget f a) (lget f b)) <-> lib_over a b c.
  Proof.
    split.
    - intros H. unfold lib_over. repeat split;
        [exact (H LUsage)|exact (H LUses)|exact (H LSecuritySchemes)|exact (H LTraits)|exact (H LAnnotationTypes)|exact (H LAnnotations)
        |exact (H LResourceTypes)|exact (H LTypes)|exact (H LExtra)].
    - unfold lib_over. intros H f. destruct f; cbn; tauto.
  Qed.

  Lemma lib_step_over e f old new : lib_step f (lover f old new) e = do v <- lib_step f new e; Ok (lover f old v).
  Proof.
    destruct f; cbn [lover lib_step].
    - unfold as_string_ptr. rewrite !run_assign_with. destruct (to_str (snd e)); reflexivity.
    - apply merged_read.
    - apply merged_read.
    - apply merged_read.
    - apply merged_read.
    - destruct (String.eqb (value (fst e)) "annotationTypes"); [apply merged_read|].
      destruct (read_annotation (snd e)); try reflexivity. cbn. rewrite merged_mput. reflexivity.
    - apply merged_read.
    - destruct (to_scalar (fst e)); try reflexivity. cbn. rewrite merged_kput. reflexivity.
    - apply merged_read.
  Qed.

  Lemma lib_overlay a l :
    match fold_res lib_assign new_library l with
    | Ok b => exists c, fold_res lib_assign a l = Ok c /\ lib_over a b c
    | Err => fold_res lib_assign a l = Err
    | Panic => fold_res lib_assign a l = Panic
    end.
  Proof.
    apply (overlay_fold lib_assign (fun _ => lib_over)).
    - apply lib_over_fields. intros f. destruct f; cbn; try reflexivity; symmetry; exact (merged_nil _ _ false).
    - clear l. intros l b c e H. rewrite <- lib_over_fields in H. rewrite !lib_assign_step. destruct (lib_target e) as [f|] eqn:T; [|reflexivity].
      rewrite H, (lib_step_over e f). destruct (lib_step f (lget f b) e) as [v| |]; try reflexivity. cbn [bind].
      eexists. split; [reflexivity|]. apply lib_over_fields. intros g. destruct (lfield_dec f g) as [<-|N].
      + rewrite !lget_lset_same. reflexivity.
      + rewrite !lget_lset_other by exact N. apply H.
  Qed.

  Lemma lib_into_over t l a :
    snd (lib_into (Map t l) a) = snd (lib_into (Map t l) new_library) /\
    (snd (lib_into (Map t l) a) = Ok tt -> lib_over a (fst (lib_into (Map t l) new_library)) (fst (lib_into (Map t l) a))).
  Proof. exact (overlay_run lib_into lib_assign (fun _ => lib_over) a new_library t l (lib_run (Map t l)) (lib_overlay a l)). Qed.

  (** *** Documentation items *)

  Lemma doc_overlay a l :
    match fold_res doc_assign new_doc l with
    | Ok b => exists c, fold_res doc_assign a l = Ok c /\ doc_over l a b c
    | Err => fold_res doc_assign a l = Err
    | Panic => fold_res doc_assign a l = Panic
    end.
  Proof.
    apply (overlay_fold doc_assign doc_over).
    - repeat split; try reflexivity. symmetry. exact (merged_nil _ _ false).
    - clear l. intros l b c e [H1 [H2 H3]]. unfold doc_assign. unfold doc_over. rewrite !spells_snoc.
      destruct (String.eqb (value (fst e)) KeyTitle) eqn:E1.
      { eexists. split; [reflexivity|]. cbn. rewrite orb_true_r. apply String.eqb_eq in E1. rewrite E1. cbn. rewrite orb_false_r. auto. }
      destruct (String.eqb (value (fst e)) KeyContent) eqn:E2.
      { eexists. split; [reflexivity|]. cbn. rewrite orb_true_r, orb_false_r. auto. }
      rewrite !orb_false_r.
      destruct (to_scalar (fst e)) as [k| |]; try reflexivity. cbn. eexists. split; [reflexivity|]. cbn. rewrite H3, merged_kput. auto.
  Qed.

  Lemma doc_into_over t l a :
    snd (doc_into (Map t l) a) = snd (doc_into (Map t l) new_doc) /\
    (snd (doc_into (Map t l) a) = Ok tt -> doc_over l a (fst (doc_into (Map t l) new_doc)) (fst (doc_into (Map t l) a))).
  Proof. exact (overlay_run doc_into doc_assign doc_over a new_doc t l (doc_run (Map t l)) (doc_overlay a l)). Qed.

  (** *** XML settings *)

  Lemma held_upd k s v m : held k (gomap_upd gkey_eqb s v m) = if gkey_eqb s k then Some v else held k m.
  Proof.
    unfold held. induction m as [|[k' v'] m IH]; cbn.
    - destruct (gkey_eqb s k); reflexivity.
    - destruct (gkey_eqb k' s) eqn:E; cbn.
      + destruct (gkey_eqb k' k) eqn:K.
        * rewrite gkey_eqb_sym in E. rewrite (gkey_eqb_trans _ _ _ E K). reflexivity.
        * destruct (gkey_eqb s k) eqn:S; [|reflexivity]. rewrite (gkey_eqb_trans _ _ _ E S) in K. discriminate.
      + destruct (gkey_eqb k' k) eqn:K; [|exact IH]. destruct (gkey_eqb s k) eqn:S; [|reflexivity].
        rewrite gkey_eqb_sym in S. rewrite (gkey_eqb_trans _ _ _ K S) in E. discriminate.
  Qed.

  Lemma xml_overlay a l :
    match fold_res xml_assign new_xml l with
    | Ok b => exists c, fold_res xml_assign a l = Ok c /\ xml_over a b c
    | Err => fold_res xml_assign a l = Err
    | Panic => fold_res xml_assign a l = Panic
    end.
  Proof.
    apply (overlay_fold xml_assign (fun _ => xml_over)).
    - repeat split; reflexivity.
    - clear l. intros l b c e (H1 & H2 & H3 & H4 & H5 & H6). unfold xml_assign, as_bool_ptr, as_string_ptr. rewrite !run_assign_with.
      destruct (String.eqb (value (fst e)) KeyAttribute).
      { destruct (to_bool (snd e)); try reflexivity. cbn. eexists. split; [reflexivity|]. repeat split; auto. }
      destruct (String.eqb (value (fst e)) KeyWrapped).
      { destruct (to_bool (snd e)); try reflexivity. cbn. eexists. split; [reflexivity|]. repeat split; auto. }
      destruct (String.eqb (value (fst e)) KeyName).
      { destruct (to_str (snd e)); try reflexivity. cbn. eexists. split; [reflexivity|]. repeat split; auto. }
      destruct (String.eqb (value (fst e)) KeyNamespace).
      { destruct (to_str (snd e)); try reflexivity. cbn. eexists. split; [reflexivity|]. repeat split; auto. }
      destruct (String.eqb (value (fst e)) KeyPrefix).
      { destruct (to_str (snd e)); try reflexivity. cbn. eexists. split; [reflexivity|]. repeat split; auto. }
      destruct (to_scalar (fst e)) as [s| |]; try reflexivity. cbn. eexists. split; [reflexivity|]. repeat split; auto.
      intros k. cbn [xml_extra]. rewrite !held_upd. destruct (gkey_eqb s k); [reflexivity|apply H6].
  Qed.

  Lemma xml_into_over t l a :
    snd (xml_into (Map t l) a) = snd (xml_into (Map t l) new_xml) /\
    (snd (xml_into (Map t l) a) = Ok tt -> xml_over a (fst (xml_into (Map t l) new_xml)) (fst (xml_into (Map t l) a))).
  Proof. exact (overlay_run xml_into xml_assign (fun _ => xml_over) a new_xml t l (xml_run (Map t l)) (xml_overlay a l)). Qed.

  (** *** Examples *)

  Lemma ex_overlay kd a l :
    match fold_res (ex_assign kd) new_ex l with
    | Ok b => exists c, fold_res (ex_assign kd) a l = Ok c /\ ex_over l a b c
    | Err => fold_res (ex_assign kd) a l = Err
    | Panic => fold_res (ex_assign kd) a l = Panic
    end.
  Proof.
    apply (overlay_fold (ex_assign kd) ex_over).
    - repeat split; try reflexivity; symmetry; exact (merged_nil _ _ false).
    - clear l. intros l b c e (H1 & H2 & H3 & H4 & H5 & H6). unfold ex_assign, as_bool, as_string_ptr, ex_over. rewrite !run_assign_with, says_snoc.
      destruct (is_string (fst e)) eqn:S; cbn [negb andb].
      2:{ rewrite orb_false_r. destruct (to_scalar (fst e)); try reflexivity. cbn. eexists. split; [reflexivity|]. cbn. rewrite H6, merged_kput. auto 10. }
      destruct (value (fst e)) as [|ch r] eqn:Ev; [reflexivity|]. rewrite <- Ev in *. destruct (Ascii.eqb ch "(") eqn:Ec.
      { apply Ascii.eqb_eq in Ec. subst ch. rewrite Ev. cbn [String.eqb]. cbn. rewrite orb_false_r. destruct (read_annotation (snd e)); try reflexivity. cbn. eexists. split; [reflexivity|].
        cbn. rewrite H3, merged_mput. auto 10. }
      destruct (String.eqb (value (fst e)) KeyDisplayName) eqn:E1.
      { apply String.eqb_eq in E1. rewrite E1. cbn [String.eqb]. cbn. rewrite orb_false_r. destruct (to_str (snd e)); try reflexivity. cbn. eexists. split; [reflexivity|]. cbn. auto 10. }
      destruct (String.eqb (value (fst e)) KeyDescription) eqn:E2.
      { apply String.eqb_eq in E2. rewrite E2. cbn. rewrite orb_false_r. destruct (to_str (snd e)); try reflexivity. cbn. eexists. split; [reflexivity|]. cbn. auto 10. }
      change KeyStrict with "strict". destruct (String.eqb (value (fst e)) "strict") eqn:E3.
      { rewrite orb_true_r. destruct (to_bool (snd e)); try reflexivity. cbn. eexists. split; [reflexivity|]. cbn. auto 10. }
      rewrite orb_false_r. destruct (String.eqb (value (fst e)) KeyValue) eqn:E4.
      { destruct (ex_val kd (snd e)); try reflexivity. cbn. eexists. split; [reflexivity|]. cbn. auto 10. }
      destruct (to_scalar (fst e)); try reflexivity. cbn. eexists. split; [reflexivity|]. cbn. rewrite H6, merged_kput. auto 10.
  Qed.

  Lemma ex_into_over kd t l a :
    snd (ex_into kd (Map t l) a) = snd (ex_into kd (Map t l) new_ex) /\
    (snd (ex_into kd (Map t l) a) = Ok tt -> ex_over l a (fst (ex_into kd (Map t l) new_ex)) (fst (ex_into kd (Map t l) a))).
  Proof. exact (overlay_run (ex_into kd) (ex_assign kd) ex_over a new_ex t l (ex_run kd (Map t l)) (ex_overlay kd a l)). Qed.

End Over.

(** *** Types *)

Section TypeOver.
  Context {F : FloatIO}.

  Lemma has_facet d f s old : shaped d -> getf f d = Some old -> facet_key f = Some s -> In f (facets_of (d_kind d)).
  Proof.
    intros Hs Hg Hk. destruct d as [b|b x fs c sp].
    - destruct f; discriminate.
    - unfold shaped in Hs. cbn in Hs. change (d_kind (TExt b x fs c sp)) with (b_kind b) in *.
      destruct (b_kind b); cbn in Hs; try discriminate; destruct sp; try discriminate; destruct f; try discriminate; cbn; tauto.
  Qed.

  Lemma shape_sort d d' f v w : same_shape d d' = true -> getf f d = Some v -> getf f d' = Some w -> same_sort v w = true.
  Proof.
    destruct d as [b|b x fs c s], d' as [b'|b' x' fs' c' s']; try discriminate; cbn [same_shape].
    - intros _. destruct f; cbn; try discriminate; intros H1 H2; injection H1 as <-; injection H2 as <-; reflexivity.
    - intros Hs. destruct f; cbn; intros H1 H2; try (injection H1 as <-; injection H2 as <-; reflexivity);
        destruct s, s'; try discriminate; cbn in H1, H2; try discriminate; injection H1 as <-; injection H2 as <-; reflexivity.
  Qed.

  Lemma shape_none d d' f : same_shape d d' = true -> getf f d = None -> getf f d' = None.
  Proof. intros H. apply getf_shape. exact H. Qed.

  (** A fresh type changes nothing. *)
  Lemma over_fresh k d f old new : same_shape d (new_type k) = true -> getf f d = Some old -> getf f (new_type k) = Some new -> over_field f [] old new = old.
  Proof.
    intros Hs H1 H2. pose proof (shape_sort _ _ _ _ _ Hs H1 H2) as S.
    destruct k; destruct f; cbn in H2; try discriminate; injection H2 as <-; destruct old; try discriminate; cbn; try reflexivity;
      try (destruct (facet_key _); reflexivity); f_equal; first [exact (merged_nil _ _ false)|exact (merged_nil _ _ true)].
  Qed.

  Lemma enum_longer kd n old new : read_enum kd (longer old new) n = do v <- read_enum kd new n; Ok (longer old v).
  Proof.
    destruct n as [|t l|]; try reflexivity. unfold read_enum, seq_fold. revert new. induction l as [|x l IH]; intros new; [reflexivity|]. cbn [fold_res].
    destruct (enum_elem kd x) as [d| |]; try reflexivity. cbn [bind]. rewrite <- IH. f_equal.
    destruct old as [old|], new as [new|]; cbn; rewrite ?app_assoc; reflexivity.
  Qed.

  Lemma over_sort f l v w : same_sort v w = true -> same_sort (over_field f l v w) v = true.
  Proof.
    intros H. destruct v, w; try discriminate; cbn; try reflexivity.
    - destruct (_ || _); reflexivity.
    - destruct (facet_key f) as [s|]; [|reflexivity]. destruct (spells s l); reflexivity.
    - destruct (facet_key f) as [s|]; [|reflexivity]. destruct (spells s l); reflexivity.
  Qed.

  Lemma step_over d l key val f old new : shaped d -> target d key = Some f -> getf f d = Some old -> same_sort old new = true ->
    step hat (d_kind d) f key val (over_field f l old new) = do v <- step hat (d_kind d) f key val new; Ok (over_field f (l ++ [(key, val)]) old v).
  Proof.
    intros Hs Ht Hg S.
    assert (Hk : match f with
                 | FType => spells "type" (l ++ [(key, val)]) || spells "schema" (l ++ [(key, val)]) = true
                 | _ => forall s, facet_key f = Some s -> spells s (l ++ [(key, val)]) = true
                 end).
    { destruct (target_cases d key f Hs Ht) as [[-> H]|[-> |[-> |[_ H]]]].
      - apply is_type_key_iff in H. rewrite !spells_snoc. cbn [fst]. destruct H as [-> | ->]; cbn; rewrite ?orb_true_r; reflexivity.
      - discriminate.
      - discriminate.
      - destruct f; try discriminate; intros s Es; rewrite Es in H; injection H as ->; rewrite spells_snoc; cbn [fst]; rewrite String.eqb_refl, orb_true_r; reflexivity. }
    assert (Done_ : forall (A : Type) (r : res A) (g : A -> fval), (forall x, over_field f (l ++ [(key, val)]) old (g x) = g x) ->
              (do x <- r; Ok (g x)) = do v <- (do x <- r; Ok (g x)); Ok (over_field f (l ++ [(key, val)]) old v)).
    { intros A r g H. destruct r; cbn; rewrite ?H; reflexivity. }
    destruct d as [b|b x fs c sp].
    - destruct f; cbn in Hg; try discriminate; injection Hg as <-; destruct new; try discriminate; cbn [step over_field].
      + apply (Done_ string). intros x. cbn. rewrite Hk. reflexivity.
      + cbn. rewrite merged_kput. reflexivity.
    - destruct f; cbn in Hg; try (injection Hg as <-; destruct new; try discriminate; cbn [step over_field]);
        try (destruct sp; cbn in Hg; try discriminate; injection Hg as <-; destruct new; try discriminate; cbn [step over_field]);
        try (apply Done_; intros y; cbn; try rewrite Hk by reflexivity; try rewrite Hk; reflexivity).
      + cbn. rewrite merged_kput. reflexivity.
      + destruct (read_annotation val); try reflexivity. cbn. rewrite merged_mput. reflexivity.
      + unfold read_facets. rewrite merged_read. destruct (read_amap _ m val); reflexivity.
      + reflexivity.
      + destruct (has_example _); [|reflexivity]. destruct (read_ex _ val); reflexivity.
      + unfold read_examples. rewrite merged_read. destruct (read_amap _ m val); reflexivity.
      + rewrite enum_longer. destruct (read_enum _ o val); reflexivity.
      + rewrite (string_list_any val _ o). pose proof (string_list_some val o) as X. destruct (run_assign (as_string_list val o)); try reflexivity.
        destruct X as [y ->]. reflexivity.
      + cbn [facet_key]. rewrite (Hk "maxLength" eq_refl). destruct (spells "maxLength" l); destruct (to_int val); reflexivity.
      + unfold read_properties. rewrite merged_read. destruct (read_amap _ m val); reflexivity.
      + reflexivity.
  Qed.

  Lemma over_other d l key val f g old new : shaped d -> target d key = Some f -> f <> g -> getf g d = Some old ->
    over_field g (l ++ [(key, val)]) old new = over_field g l old new.
  Proof.
    intros Hs Ht N Hg.
    assert (Hk : forall s, facet_key g = Some s -> spells s (l ++ [(key, val)]) = spells s l).
    { intros s Es. rewrite spells_snoc. cbn [fst]. destruct (String.eqb (value key) s) eqn:X; [|apply orb_false_r]. apply String.eqb_eq in X. subst s.
      pose proof (target_facet d key g Hs (has_facet d g _ old Hs Hg Es) Es) as T. congruence. }
    destruct old; cbn; try reflexivity.
    - assert (g = FType) as ->.
      { clear -Hg. destruct d as [b|b x fs c sp]; destruct g; cbn in Hg; try discriminate; try reflexivity; destruct sp; discriminate. }
      rewrite !spells_snoc. cbn [fst].
      destruct (String.eqb (value key) "type" || String.eqb (value key) "schema") eqn:X.
      + exfalso. apply N. pose proof (aims_type d (key, key)) as A. unfold aims in A. cbn [fst] in A. rewrite Ht in A.
        replace (is_type_key key) with true in A by (symmetry; exact X). symmetry. apply field_eqb_eq. exact A.
      + apply orb_false_elim in X as [-> ->]. rewrite !orb_false_r. reflexivity.
    - destruct (facet_key g) as [s|]; [|reflexivity]. rewrite (Hk s eq_refl). reflexivity.
    - destruct (facet_key g) as [s|]; [|reflexivity]. rewrite (Hk s eq_refl). reflexivity.
  Qed.

  Definition type_over' (l : list (node * node)) (a b c : dtype) : Prop :=
    type_over l a b c /\ d_kind b = d_kind a /\ same_shape b a = true /\ same_shape c a = true.

  Lemma type_overlay a l : shaped a ->
    match fold_res (type_assign hat) (new_type (d_kind a)) l with
    | Ok b => exists c, fold_res (type_assign hat) a l = Ok c /\ type_over' l a b c
    | Err => fold_res (type_assign hat) a l = Err
    | Panic => fold_res (type_assign hat) a l = Panic
    end.
  Proof.
    intros Hs. apply (overlay_fold (type_assign hat) type_over').
    - pose proof Hs as Hs'. unfold shaped in Hs'. split; [|split; [apply d_kind_new|split; [rewrite same_shape_sym; exact Hs'|apply same_shape_refl]]].
      split; [reflexivity|]. intros f. destruct (getf f a) as [old|] eqn:Ea; [|reflexivity].
      destruct (getf f (new_type (d_kind a))) as [new|] eqn:En.
      + f_equal. symmetry. apply (over_fresh _ _ _ _ _ Hs' Ea En).
      + rewrite same_shape_sym in Hs'. rewrite (shape_none _ _ f Hs' En) in Ea. discriminate.
    - clear l. intros l b c [key val] ([Kc H] & Kb & Sb & Sc). rewrite !type_assign_step.
      rewrite (target_shape c a key Sc), (target_shape b a key Sb). destruct (target a key) as [f|] eqn:T; [|reflexivity].
      destruct (target_has _ _ _ T) as [old Ho].
      destruct (getf f b) as [new|] eqn:En; [|rewrite (shape_none _ _ f Sb En) in Ho; discriminate].
      assert (S : same_sort old new = true). { eapply shape_sort; [|exact Ho|exact En]. rewrite same_shape_sym. exact Sb. }
      unfold step_in. rewrite (H f), Ho, En, Kc, Kb. rewrite (step_over a l key val f old new Hs T Ho S).
      destruct (step hat (d_kind a) f key val new) as [v| |] eqn:Ev; try reflexivity. cbn [bind]. eexists. split; [reflexivity|].
      assert (Sv : same_sort v new = true) by (eapply step_sort; [exact En|exact Ev]).
      assert (So : same_sort (over_field f (l ++ [(key, val)]) old v) (over_field f l old new) = true).
      { eapply same_sort_trans; [apply over_sort|].
        - rewrite (same_sort_sym v) in Sv. eapply same_sort_trans; [exact S|exact Sv].
        - rewrite same_sort_sym. apply over_sort. exact S. }
      split; [split; [rewrite d_kind_setf; exact Kc|]|split; [rewrite d_kind_setf; exact Kb|split; (eapply same_shape_trans; [apply same_shape_setf|assumption])]].
      intros g. destruct (field_dec f g) as [<-|N].
      + rewrite getf_setf_same, Ho, getf_setf_same; [reflexivity| |].
        * exists new. auto.
        * exists (over_field f l old new). split; [rewrite H, Ho, En; reflexivity|exact So].
      + rewrite !getf_setf_other by congruence. rewrite H. destruct (getf g a) as [og|] eqn:Eg; [|reflexivity]. destruct (getf g b) as [ng|]; [|reflexivity].
        f_equal. symmetry. apply (over_other a l key val f g og ng Hs T N Eg).
  Qed.

  Lemma type_into_over t l a : t <> TStr -> shaped a ->
    snd (type_into (Map t l) a) = snd (type_into (Map t l) (new_type (d_kind a))) /\
    (snd (type_into (Map t l) a) = Ok tt -> type_over l a (fst (type_into (Map t l) (new_type (d_kind a)))) (fst (type_into (Map t l) a))).
  Proof.
    intros Ht Hs. destruct (overlay_run type_into (type_assign hat) type_over' a (new_type (d_kind a)) t l (fun s => type_run t l s Ht) (type_overlay a l Hs)) as [H1 H2].
    split; [exact H1|]. intros H. apply (H2 H).
  Qed.
End TypeOver.

(** ** What a reading that failed leaves *)

(** Where a loop stopped. *)
Lemma loop_stop {A S} (f : S -> A -> S * res unit) l : forall s, is_ok (snd (loop f s l)) = false ->
  exists l1 e l2 s1, l = l1 ++ e :: l2 /\ loop f s l1 = (s1, Ok tt) /\ is_ok (snd (f s1 e)) = false /\ loop f s l = f s1 e.
Proof.
  induction l as [|e l IH]; intros s H; [discriminate|]. cbn in H |- *. destruct (f s e) as [s1 [[]| |]] eqn:E.
  - destruct (IH s1 H) as (l1 & e1 & l2 & s2 & -> & H1 & H2 & H3). exists (e :: l1), e1, l2, s2. cbn. rewrite E. auto.
  - exists [], e, l, s. cbn. rewrite E. auto.
  - exists [], e, l, s. cbn. rewrite E. auto.
Qed.

Lemma loop_snoc {A S} (f : S -> A -> S * res unit) l e : forall s s1, loop f s l = (s1, Ok tt) -> loop f s (l ++ [e]) = f s1 e.
Proof.
  induction l as [|x l IH]; intros s s1 H; cbn in H |- *.
  - injection H as <-. destruct (f s e) as [s2 [[]| |]]; reflexivity.
  - destruct (f s x) as [s2 [[]| |]]; try discriminate. apply IH, H.
Qed.

(** What a failed entry with a section as its value leaves of the section. *)
Definition part_read {A} (rd : node -> A -> A * res unit) (n : node) (a : A) : Prop :=
  (fst (rd n a) = a /\ is_ok (snd (rd (emptied n) a)) = false) \/
  (exists v1 v2, one_more v1 v2 n /\ rd v1 a = (fst (rd n a), Ok tt) /\ snd (rd v2 a) = snd (rd n a)).

Lemma part_map {S} (f : S -> node * node -> S * res unit) : (forall s e, is_ok (snd (f s e)) = false -> fst (f s e) = s) ->
  forall n s, is_ok (snd (map_for_each f s n)) = false -> part_read (fun n s => map_for_each f s n) n s.
Proof.
  intros Hf n s H. destruct n as [t v|t l|t l]; try (left; split; reflexivity). right. cbn in H.
  destruct (loop_stop f l s H) as (l1 & e & l2 & s1 & -> & H1 & H2 & H3). exists (Map t l1), (Map t (l1 ++ [e])). split; [constructor|]. cbn.
  rewrite H1, H3, (loop_snoc f l1 e s s1 H1), (Hf _ _ H2). auto.
Qed.

Lemma part_seq {S} (f : S -> node -> S * res unit) : (forall s e, is_ok (snd (f s e)) = false -> fst (f s e) = s) ->
  forall n s, is_ok (snd (seq_for_each f s n)) = false -> part_read (fun n s => seq_for_each f s n) n s.
Proof.
  intros Hf n s H. destruct n as [t v|t l|t l]; try (left; split; reflexivity). right. cbn in H.
  destruct (loop_stop f l s H) as (l1 & e & l2 & s1 & -> & H1 & H2 & H3). exists (Seq t l1), (Seq t (l1 ++ [e])). split; [constructor|]. cbn.
  rewrite H1, H3, (loop_snoc f l1 e s s1 H1), (Hf _ _ H2). auto.
Qed.

Lemma whole_kept {A} (a : A) r : is_ok (snd (whole a r)) = false -> fst (whole a r) = a.
Proof. destruct r; [discriminate|reflexivity..]. Qed.

Lemma whole_ok {A} (a : A) r : is_ok (snd (whole a r)) = is_ok r.
Proof. destruct r; reflexivity. Qed.

Lemma part_fill {V} (dec : node -> res V) n m : is_ok (snd (fill dec n m)) = false -> part_read (fill dec) n m.
Proof.
  apply (part_map (read_pair put_in dec)). intros s e. unfold read_pair, put_in. destruct (to_str _); cbn; try reflexivity.
  destruct (dec _); cbn; try reflexivity. discriminate.
Qed.

(** One entry of a document. *)
Definition entry_part {A} (sections : list string) (st : A -> node * node -> A * res unit) (a : A) (e : node * node) : Prop :=
  (fst (st a e) = a /\ (In (value (fst e)) sections -> is_ok (snd (st a (fst e, emptied (snd e)))) = false)) \/
  (In (value (fst e)) sections /\
   exists v1 v2, one_more v1 v2 (snd e) /\ st a (fst e, v1) = (fst (st a e), Ok tt) /\ snd (st a (fst e, v2)) = snd (st a e)).

Lemma part_inside {A B} sections (st : A -> node * node -> A * res unit) (set : B -> A) rd old a k v :
  In (value k) sections -> set old = a -> (forall n, st a (k, n) = inside set (rd n old)) -> (is_ok (snd (rd v old)) = false -> part_read rd v old) ->
  is_ok (snd (st a (k, v))) = false -> entry_part sections st a (k, v).
Proof.
  intros Hin Hset Hst Hp Hf. unfold entry_part. cbn [fst snd]. rewrite !Hst in *. cbn in Hf. destruct (Hp Hf) as [[H1 H2]|(v1 & v2 & O & H1 & H2)].
  - left. cbn. rewrite H1. auto.
  - right. split; [exact Hin|]. exists v1, v2. rewrite !Hst. cbn. rewrite H1, H2. auto.
Qed.

Lemma run_ok {A} (r : A * res unit) a : r = (a, Ok tt) -> run_assign r = Ok a.
Proof. intros ->. reflexivity. Qed.

Lemma run_same {A} (r r' : A * res unit) : is_ok (snd r') = false -> snd r = snd r' -> run_assign r = run_assign r'.
Proof. destruct r as [a [[]| |]], r' as [b [[]| |]]; cbn; intros H E; try discriminate; reflexivity. Qed.

Lemma run_is_ok {A} (r : A * res unit) : is_ok (run_assign r) = is_ok (snd r).
Proof. destruct r as [a [[]| |]]; reflexivity. Qed.

Lemma loop_one {A S} (f : S -> A -> S * res unit) s e : loop f s [e] = f s e.
Proof. cbn. destruct (f s e) as [s1 [[]| |]]; reflexivity. Qed.

Lemma leaves_loop {A} sections (into : node -> A -> A * res unit) (st : A -> node * node -> A * res unit) t l a :
  (forall l a, into (Map t l) a = loop st a l) ->
  (forall a e, is_ok (snd (st a e)) = false -> entry_part sections st a e) ->
  is_ok (snd (into (Map t l) a)) = false ->
  leaves (fun n a => run_assign (into n a)) sections (Map t l) a (run_assign (into (Map t l) a)) (fst (into (Map t l) a)).
Proof.
  intros Hi Hp H. rewrite Hi in *. destruct (loop_stop st l a H) as (l1 & [k v] & l2 & a1 & -> & H1 & H2 & H3). rewrite H3.
  destruct (Hp a1 (k, v) H2) as [[E1 E2]|(Hin & v1 & v2 & O & E1 & E2)].
  - rewrite E1. apply leaves_entry.
    + rewrite Hi, H1. reflexivity.
    + rewrite run_is_ok. exact H2.
    + rewrite Hi, loop_one. reflexivity.
    + intros I. rewrite Hi, loop_one, run_is_ok. apply E2, I.
  - cbn [fst snd] in *. apply (leaves_item _ _ t l1 k v v1 v2 l2 a a1).
    + rewrite Hi, H1. reflexivity.
    + exact Hin.
    + exact O.
    + rewrite Hi, loop_one, E1. reflexivity.
    + rewrite run_is_ok. exact H2.
    + rewrite Hi, loop_one. apply run_same; [exact H2|exact E2].
Qed.

Lemma leaves_other {A} sections (into : node -> A -> A * res unit) n a : is_map n = false -> fst (into n a) = a -> is_ok (snd (into n a)) = false ->
  leaves (fun n a => run_assign (into n a)) sections n a (run_assign (into n a)) (fst (into n a)).
Proof. intros Hn E H. rewrite E. apply leaves_all; [|rewrite run_is_ok; exact H|reflexivity]. intros t l ->. discriminate. Qed.

(** A reader without sections. *)
Lemma plain_part {A} (st : A -> node * node -> res A) a e : is_ok (snd (whole a (st a e))) = false ->
  entry_part [] (fun a e => whole a (st a e)) a e.
Proof. intros H. left. split; [apply whole_kept, H|intros []]. Qed.

Section Left.
  Context {F : FloatIO}.

  Lemma doc_left n a : is_ok (snd (doc_into n a)) = false ->
    leaves (fun n a => run_assign (doc_into n a)) [] n a (run_assign (doc_into n a)) (fst (doc_into n a)).
  Proof.
    destruct n as [t v|t l|t l]; intros H; try (apply leaves_other; [reflexivity|reflexivity|exact H]).
    apply (leaves_loop [] doc_into (fun d e => whole d (doc_assign d e))); [reflexivity|apply plain_part|exact H].
  Qed.

  Lemma xml_left n a : is_ok (snd (xml_into n a)) = false ->
    leaves (fun n a => run_assign (xml_into n a)) [] n a (run_assign (xml_into n a)) (fst (xml_into n a)).
  Proof.
    destruct n as [t v|t l|t l]; intros H; try (apply leaves_other; [reflexivity|reflexivity|exact H]).
    apply (leaves_loop [] xml_into (fun d e => whole d (xml_assign d e))); [reflexivity|apply plain_part|exact H].
  Qed.

  Lemma ex_val_cut kd n e : is_ok (snd (ex_val_into kd n e)) = false -> fst (ex_val_into kd n e) = cut kd true e.
  Proof. unfold ex_val_into. destruct kd; try apply whole_kept. destruct n; [reflexivity|discriminate|reflexivity]. Qed.

  Lemma ex_assign_cut kd e p : is_ok (snd (ex_assign_into kd e p)) = false ->
    fst (ex_assign_into kd e p) = cut kd (is_string (fst p) && String.eqb (value (fst p)) KeyValue) e.
  Proof.
    unfold ex_assign_into. destruct (is_string (fst p) && String.eqb (value (fst p)) KeyValue); intros H; [apply ex_val_cut, H|].
    rewrite (whole_kept _ _ H). destruct kd; reflexivity.
  Qed.

  Lemma ex_left kd n a : is_ok (snd (ex_into kd n a)) = false ->
    ex_leaves (fun n a => run_assign (ex_into kd n a)) kd n a (run_assign (ex_into kd n a)) (fst (ex_into kd n a)).
  Proof.
    destruct n as [t v|t l|t l]; intros H.
    1, 2: match goal with |- ex_leaves ?rd ?k ?n ?a ?r _ => replace (fst (ex_into k n a)) with (cut k true a) by (symmetry; apply ex_val_cut, H) end;
      apply ex_leaves_all; [discriminate|rewrite run_is_ok; exact H|reflexivity].
    destruct (loop_stop _ l a H) as (l1 & e & l2 & a1 & -> & H1 & H2 & H3). cbn [ex_into]. rewrite H3, (ex_assign_cut _ _ _ H2).
    apply ex_leaves_entry; [cbn [ex_into]; rewrite H1; reflexivity|rewrite run_is_ok; exact H2|cbn [ex_into]; rewrite loop_one; reflexivity].
  Qed.

  Lemma part_docs n o : is_ok (snd (docs_in n o)) = false -> part_read docs_in n o.
  Proof. apply (part_seq (fun acc cur => whole acc (read_doc acc cur))). intros s e. apply whole_kept. Qed.

  Lemma part_enum kd n o : is_ok (snd (enum_in kd n o)) = false -> part_read (enum_in kd) n o.
  Proof. apply (part_seq (fun acc cur => whole acc (do v <- enum_elem kd cur; Ok (Some (opt_list acc ++ [v]))))). intros s e. apply whole_kept. Qed.

  (** Keys that are no sections, or keys that are no strings. *)
  Lemma part_whole {A} sections (st : A -> node * node -> A * res unit) (g : A -> node * node -> res A) a k v :
    (forall n, st a (k, n) = whole a (g a (k, n))) ->
    (In (value k) sections -> is_ok (g a (k, v)) = false -> is_ok (g a (k, emptied v)) = false) ->
    is_ok (snd (st a (k, v))) = false -> entry_part sections st a (k, v).
  Proof.
    intros Hst Hg H. rewrite Hst in H. left. cbn [fst snd]. rewrite !Hst. split; [apply whole_kept, H|]. intros I.
    rewrite whole_ok in *. auto.
  Qed.

  Lemma api_part a e : is_ok (snd (api_assign_into a e)) = false -> entry_part api_sections api_assign_into a e.
  Proof.
    destruct e as [k v]. intros H.
    destruct (is_string k) eqn:Es; [|apply (part_whole _ _ api_assign); [intros n; unfold api_assign_into; cbn [fst]; rewrite Es; reflexivity| |exact H];
      unfold api_assign; cbn [fst snd]; rewrite Es; cbn [negb]; intros _; destruct (to_scalar k); auto; discriminate].
    assert (Hin : forall s, In s api_sections -> String.eqb (value k) s = true -> In (value k) api_sections)
      by (intros s I E; apply String.eqb_eq in E; rewrite E; exact I).
    destruct (String.eqb (value k) KeyDocumentation) eqn:E1;
      [eapply (part_inside _ _ (fun x => a_set_documentation x a) docs_in (a_documentation a));
        [eapply Hin; [|exact E1]; cbn; tauto|destruct a; reflexivity|intros n; unfold api_assign_into; cbn [fst snd]; rewrite Es, E1; reflexivity|apply part_docs|exact H]|].
    destruct (String.eqb (value k) KeyUses) eqn:E2;
      [eapply (part_inside _ _ (fun x => a_set_uses x a) (fill to_str) (a_uses a));
        [eapply Hin; [|exact E2]; cbn; tauto|destruct a; reflexivity|intros n; unfold api_assign_into; cbn [fst snd]; rewrite Es, E1, E2; reflexivity|apply part_fill|exact H]|].
    destruct (String.eqb (value k) KeySecuritySchemes) eqn:E3;
      [eapply (part_inside _ _ (fun x => a_set_securitySchemes x a) (fill as_gnode) (a_securitySchemes a));
        [eapply Hin; [|exact E3]; cbn; tauto|destruct a; reflexivity|intros n; unfold api_assign_into; cbn [fst snd]; rewrite Es, E1, E2, E3; reflexivity|apply part_fill|exact H]|].
    destruct (String.eqb (value k) KeyBaseURIParams) eqn:E4;
      [eapply (part_inside _ _ (fun x => a_set_baseURIParameters x a) (fill as_gnode) (a_baseURIParameters a));
        [eapply Hin; [|exact E4]; cbn; tauto|destruct a; reflexivity|intros n; unfold api_assign_into; cbn [fst snd]; rewrite Es, E1, E2, E3, E4; reflexivity|apply part_fill|exact H]|].
    destruct (String.eqb (value k) KeyTraits) eqn:E5;
      [eapply (part_inside _ _ (fun x => a_set_traits x a) (fill as_gnode) (a_traits a));
        [eapply Hin; [|exact E5]; cbn; tauto|destruct a; reflexivity|intros n; unfold api_assign_into; cbn [fst snd]; rewrite Es, E1, E2, E3, E4, E5; reflexivity|apply part_fill|exact H]|].
    destruct (String.eqb (value k) KeyAnnotationTypes) eqn:E6;
      [eapply (part_inside _ _ (fun x => a_set_annotationTypes x a) (fill as_gnode) (a_annotationTypes a));
        [eapply Hin; [|exact E6]; cbn; tauto|destruct a; reflexivity|intros n; unfold api_assign_into; cbn [fst snd]; rewrite Es, E1, E2, E3, E4, E5, E6; reflexivity|apply part_fill|exact H]|].
    destruct (String.eqb (value k) KeyResourceTypes) eqn:E7;
      [eapply (part_inside _ _ (fun x => a_set_resourceTypes x a) (fill as_gnode) (a_resourceTypes a));
        [eapply Hin; [|exact E7]; cbn; tauto|destruct a; reflexivity|intros n; unfold api_assign_into; cbn [fst snd]; rewrite Es, E1, E2, E3, E4, E5, E6, E7; reflexivity|apply part_fill|exact H]|].
    destruct (String.eqb (value k) KeyTypes || String.eqb (value k) KeySchemas) eqn:E8;
      [eapply (part_inside _ _ (fun x => a_set_types x a) (fill hat) (a_types a));
        [apply orb_prop in E8 as [E8|E8]; (eapply Hin; [|exact E8]; cbn; tauto)|destruct a; reflexivity
        |intros n; unfold api_assign_into; cbn [fst snd]; rewrite Es, E1, E2, E3, E4, E5, E6, E7, E8; reflexivity|apply part_fill|exact H]|].
    apply (part_whole _ _ api_assign); [intros n; unfold api_assign_into; cbn [fst snd]; rewrite Es, E1, E2, E3, E4, E5, E6, E7, E8; reflexivity| |exact H].
    apply orb_false_elim in E8 as [E8 E9]. intros I. exfalso. cbn in I.
    repeat match type of I with _ \/ _ => destruct I as [I|I] end; try contradiction; rewrite <- I in *; discriminate.
  Qed.

  Lemma api_left n a : is_ok (snd (api_into n a)) = false ->
    leaves (fun n a => run_assign (api_into n a)) api_sections n a (run_assign (api_into n a)) (fst (api_into n a)).
  Proof.
    destruct n as [t v|t l|t l]; intros H; try (apply leaves_other; [reflexivity|reflexivity|exact H]).
    apply (leaves_loop api_sections api_into api_assign_into); [reflexivity|apply api_part|exact H].
  Qed.

  Lemma lib_part a e : is_ok (snd (lib_assign_into a e)) = false -> entry_part lib_sections lib_assign_into a e.
  Proof.
    destruct e as [k v]. intros H.
    assert (Hin : forall s, In s lib_sections -> String.eqb (value k) s = true -> In (value k) lib_sections)
      by (intros s I E; apply String.eqb_eq in E; rewrite E; exact I).
    destruct (String.eqb (value k) KeyAnnotationTypes) eqn:E1;
      [eapply (part_inside _ _ (fun x => l_set_annotations x a) (fill read_annotation) (l_annotations a));
        [eapply Hin; [|exact E1]; cbn; tauto|destruct a; reflexivity|intros n; unfold lib_assign_into; cbn [fst snd]; rewrite E1; reflexivity|apply part_fill|exact H]|].
    destruct (String.eqb (value k) KeyResourceTypes) eqn:E2;
      [eapply (part_inside _ _ (fun x => l_set_resourceTypes x a) (fill as_gnode) (l_resourceTypes a));
        [eapply Hin; [|exact E2]; cbn; tauto|destruct a; reflexivity|intros n; unfold lib_assign_into; cbn [fst snd]; rewrite E1, E2; reflexivity|apply part_fill|exact H]|].
    destruct (String.eqb (value k) KeyTypes || String.eqb (value k) KeySchemas) eqn:E3;
      [eapply (part_inside _ _ (fun x => l_set_types x a) (fill hat) (l_types a));
        [apply orb_prop in E3 as [E3|E3]; (eapply Hin; [|exact E3]; cbn; tauto)|destruct a; reflexivity
        |intros n; unfold lib_assign_into; cbn [fst snd]; rewrite E1, E2, E3; reflexivity|apply part_fill|exact H]|].
    destruct (String.eqb (value k) KeyTraits) eqn:E4;
      [eapply (part_inside _ _ (fun x => l_set_traits x a) (fill as_gnode) (l_traits a));
        [eapply Hin; [|exact E4]; cbn; tauto|destruct a; reflexivity|intros n; unfold lib_assign_into; cbn [fst snd]; rewrite E1, E2, E3, E4; reflexivity|apply part_fill|exact H]|].
    destruct (String.eqb (value k) KeyUses) eqn:E5;
      [eapply (part_inside _ _ (fun x => l_set_uses x a) (fill to_str) (l_uses a));
        [eapply Hin; [|exact E5]; cbn; tauto|destruct a; reflexivity|intros n; unfold lib_assign_into; cbn [fst snd]; rewrite E1, E2, E3, E4, E5; reflexivity|apply part_fill|exact H]|].
    destruct (String.eqb (value k) KeySecuritySchemes) eqn:E6;
      [eapply (part_inside _ _ (fun x => l_set_securitySchemes x a) (fill as_gnode) (l_securitySchemes a));
        [eapply Hin; [|exact E6]; cbn; tauto|destruct a; reflexivity|intros n; unfold lib_assign_into; cbn [fst snd]; rewrite E1, E2, E3, E4, E5, E6; reflexivity|apply part_fill|exact H]|].
    apply (part_whole _ _ lib_assign); [intros n; unfold lib_assign_into; cbn [fst snd]; rewrite E1, E2, E3, E4, E5, E6; reflexivity| |exact H].
    apply orb_false_elim in E3 as [E3 E7]. intros I. exfalso. cbn in I.
    repeat match type of I with _ \/ _ => destruct I as [I|I] end; try contradiction; rewrite <- I in *; discriminate.
  Qed.

  Lemma lib_left n a : is_ok (snd (lib_into n a)) = false ->
    leaves (fun n a => run_assign (lib_into n a)) lib_sections n a (run_assign (lib_into n a)) (fst (lib_into n a)).
  Proof.
    destruct n as [t v|t l|t l]; intros H; try (apply leaves_other; [reflexivity|reflexivity|exact H]).
    apply (leaves_loop lib_sections lib_into lib_assign_into); [reflexivity|apply lib_part|exact H].
  Qed.

  Lemma type_extra_any d k v w : target d k = Some FExtra -> is_ok (type_assign hat d (k, v)) = is_ok (type_assign hat d (k, w)).
  Proof.
    intros H. rewrite !type_assign_step, H. unfold step_in. destruct (getf FExtra d) as [o|]; [|reflexivity]. cbn.
    destruct o, (to_scalar k); reflexivity.
  Qed.

  Lemma type_part d e : is_ok (snd (type_assign_into d e)) = false -> entry_part type_sections type_assign_into d e.
  Proof.
    destruct e as [k v]. intros H.
    assert (Hin : forall s, In s type_sections -> String.eqb (value k) s = true -> In (value k) type_sections)
      by (intros s I E; apply String.eqb_eq in E; rewrite E; exact I).
    destruct d as [b|b x f c s].
    - apply (part_whole _ _ (type_assign hat)); [reflexivity| |exact H]. intros I E. rewrite <- E. apply type_extra_any. cbn. f_equal.
      cbn in I. repeat match type of I with _ \/ _ => destruct I as [I|I] end; try contradiction; rewrite <- I; reflexivity.
    - destruct (String.eqb (value k) KeyExamples) eqn:E1;
        [eapply (part_inside _ _ (fun m => TExt b x f (mkCom (c_def c) (c_example c) m (c_enum c)) s) (fill (read_ex (b_kind b))) (c_examples c));
          [eapply Hin; [|exact E1]; cbn; tauto|destruct c; reflexivity|intros n; unfold type_assign_into; cbn [fst snd]; rewrite E1; reflexivity|apply part_fill|exact H]|].
      destruct (String.eqb (value k) KeyEnum) eqn:E2;
        [eapply (part_inside _ _ (fun l => TExt b x f (mkCom (c_def c) (c_example c) (c_examples c) l) s) (enum_in (b_kind b)) (c_enum c));
          [eapply Hin; [|exact E2]; cbn; tauto|destruct c; reflexivity|intros n; unfold type_assign_into; cbn [fst snd]; rewrite E1, E2; reflexivity|apply part_enum|exact H]|].
      destruct (String.eqb (value k) KeyFacets) eqn:E3;
        [eapply (part_inside _ _ (fun m => TExt b x m c s) (fill (DataType.read_types hat anew)) f);
          [eapply Hin; [|exact E3]; cbn; tauto|reflexivity|intros n; unfold type_assign_into; cbn [fst snd]; rewrite E1, E2, E3; reflexivity|apply part_fill|exact H]|].
      destruct (String.eqb (value k) KeyProperties) eqn:E4.
      + destruct s as [| | | | | |ps mn mx ad di dv|] eqn:Es;
          try (apply (part_whole _ _ (type_assign hat));
            [intros n; unfold type_assign_into; cbn [fst snd]; rewrite E1, E2, E3; reflexivity
            |intros _ E; rewrite <- E; apply type_extra_any; apply String.eqb_eq in E4; unfold target; rewrite E4; cbn; destruct (is_string k); reflexivity
            |exact H]).
        eapply (part_inside _ _ (fun m => TExt b x f c (SObject m mn mx ad di dv)) (fill (fun v => do t <- hat v; as_property t)) ps);
          [eapply Hin; [|exact E4]; cbn; tauto|reflexivity|intros n; unfold type_assign_into; cbn [fst snd]; rewrite E1, E2, E3, E4; reflexivity|apply part_fill|exact H].
      + apply (part_whole _ _ (type_assign hat)); [intros n; unfold type_assign_into; cbn [fst snd]; rewrite E1, E2, E3, ?E4; destruct s; reflexivity| |exact H].
        intros I. exfalso. cbn in I.
        repeat match type of I with _ \/ _ => destruct I as [I|I] end; try contradiction; rewrite <- I in *; discriminate.
  Qed.

  Lemma type_left n a : is_ok (snd (type_into n a)) = false ->
    leaves (fun n a => run_assign (type_into n a)) type_sections n a (run_assign (type_into n a)) (fst (type_into n a)).
  Proof.
    intros H. destruct (is_string n) eqn:Es; [unfold type_into in H; rewrite Es in H; discriminate|].
    destruct n as [t v|t l|t l]; try (apply leaves_other; [reflexivity|unfold type_into; rewrite Es; reflexivity|exact H]).
    apply (leaves_loop type_sections type_into type_assign_into); [|apply type_part|exact H].
    intros l' a'. unfold type_into. replace (is_string (Map t l')) with (is_string (Map t l)) by (destruct t; reflexivity). rewrite Es. reflexivity.
  Qed.
End Left.
