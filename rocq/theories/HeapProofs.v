(** Proofs about type definitions that are held by reference (C63, C64). *)
From Coq Require Import SpecFloat Relations.
From Verif Require Import Base Num OMap OMapSpec Keys Yaml Values Assign Formats Meta Out Xml Example DataType Marshal Doc Api Library Setters Heap
  AssignProofs TypeFacts Fields FieldProofs FacetSpec FacetProofs DocProofs TypeWrite OrderProofs PathProofs HeapSpec.

(** ** Maps *)

Lemma all_some_iff {A B} (f : A -> option B) l : forall l', all_some f l = Some l' <-> Forall2 (fun a b => f a = Some b) l l'.
Proof.
  induction l as [|a l IH]; intros l'; cbn [all_some].
  - split; [intros H; injection H as <-; constructor|intros H; inversion H; reflexivity].
  - destruct (f a) as [b|] eqn:E; cbn [obind].
    + destruct (all_some f l) as [r|] eqn:El; cbn [option_map].
      * split; [intros H; injection H as <-; constructor; [exact E|apply IH; reflexivity]|].
        intros H. inversion H as [|x y p q Hx Hq]; subst. apply IH in Hq. injection Hq as <-. congruence.
      * split; [discriminate|]. intros H. inversion H as [|x y p q Hx Hq]; subst. apply IH in Hq. discriminate.
    + split; [discriminate|]. intros H. inversion H as [|x y p q Hx Hq]; subst. congruence.
Qed.

Lemma map_some_iff {A B} (f : A -> option B) m m' :
  map_some f m = Some m' <-> oord m' = oord m /\ Forall2 (fun e e' => fst e' = fst e /\ f (snd e) = Some (snd e')) (ents m) (ents m').
Proof.
  unfold map_some. split.
  - destruct (all_some _ (ents m)) as [l|] eqn:E; [|discriminate]. cbn. intros H. injection H as <-. split; [reflexivity|].
    apply all_some_iff in E. cbn [ents]. eapply Forall2_impl; [|exact E]. intros e e' H. cbn beta in H. destruct (f (snd e)) as [b|]; [|discriminate].
    injection H as <-. auto.
  - intros [H1 H2]. assert (E : all_some (fun e => option_map (pair (fst e)) (f (snd e))) (ents m) = Some (ents m')).
    { apply all_some_iff. eapply Forall2_impl; [|exact H2]. intros e [k v] [X Y]. cbn in *. rewrite Y. cbn. congruence. }
    rewrite E. cbn. f_equal. destruct m' as [l o]. cbn in *. congruence.
Qed.

Lemma map_some_more {A B} (f g : A -> option B) m m' : (forall e b, In e (ents m) -> f (snd e) = Some b -> g (snd e) = Some b) -> map_some f m = Some m' -> map_some g m = Some m'.
Proof.
  intros H E. apply map_some_iff in E as [E1 E2]. apply map_some_iff. split; [exact E1|].
  assert (G : forall l l', incl l (ents m) -> Forall2 (fun e e' => fst e' = fst e /\ f (snd e) = Some (snd e')) l l' ->
    Forall2 (fun (e : string * A) (e' : string * B) => fst e' = fst e /\ g (snd e) = Some (snd e')) l l').
  { intros l l' Hi Hl. induction Hl as [|x y l l' [X Y] _ IH]; constructor; [split; [exact X|apply H; [apply Hi; left; reflexivity|exact Y]]|].
    apply IH. intros z Hz. apply Hi. right. exact Hz. }
  apply G; [apply incl_refl|exact E2].
Qed.

Lemma map_some_total {A B} (f : A -> option B) m : (forall e, In e (ents m) -> exists b, f (snd e) = Some b) -> exists m', map_some f m = Some m'.
Proof.
  intros H. assert (G : forall l, (forall e, In e l -> exists b, f (snd e) = Some b) -> exists l', all_some (fun e : string * A => option_map (pair (fst e)) (f (snd e))) l = Some l').
  { induction l as [|e l IH]; intros Hl; [exists []; reflexivity|]. destruct (Hl e (or_introl eq_refl)) as [b Hb]. destruct IH as [l' Hl']; [intros x Hx; apply Hl; right; exact Hx|].
    exists ((fst e, b) :: l'). cbn [all_some]. rewrite Hb. cbn. rewrite Hl'. reflexivity. }
  destruct (G _ H) as [l' E]. exists (mkMap l' (oord m)). unfold map_some. rewrite E. reflexivity.
Qed.

Lemma map_some_each {A B} (f : A -> option B) m m' e : map_some f m = Some m' -> In e (ents m) -> exists b, f (snd e) = Some b /\ In (fst e, b) (ents m').
Proof.
  intros H He. apply map_some_iff in H as [_ H]. induction H as [|x y l l' [X Y] _ IH]; [destruct He|].
  destruct He as [<-|He]; [exists (snd y); split; [exact Y|left; destruct y; cbn in *; congruence]|].
  destruct (IH He) as [b [H1 H2]]. exists b. split; [exact H1|right; exact H2].
Qed.

Lemma map_some_get {A B} (f : A -> option B) m m' k : map_some f m = Some m' ->
  sget String.eqb k (ents m') = obind (sget String.eqb k (ents m)) f.
Proof.
  intros H. apply map_some_iff in H as [_ H]. induction H as [|[k1 x] [k2 y] l l' [X Y] _ IH]; [reflexivity|]. cbn [fst snd] in X, Y. subst k2.
  unfold sget in *. cbn [find fst snd] in *. destruct (String.eqb k1 k) eqn:E; cbn; [|exact IH]. symmetry. exact Y.
Qed.

Lemma map_some_nonempty {A B} (f : A -> option B) m m' : map_some f m = Some m' -> nonempty m' = nonempty m.
Proof. intros H. apply map_some_iff in H as [_ H]. unfold nonempty. destruct H; reflexivity. Qed.

Lemma in_spec_more {A B} (f g : A -> option B) s s' : (forall a b, f a = Some b -> g a = Some b) -> in_spec f s = Some s' -> in_spec g s = Some s'.
Proof.
  intros H. destruct s as [|u mn mx [a|]| | | | |ps mn mx ad di dv|]; cbn [in_spec]; try exact (fun E => E).
  - destruct (f a) as [b|] eqn:E; [|discriminate]. rewrite (H _ _ E). exact (fun E => E).
  - destruct (map_some f ps) as [qs|] eqn:E; [|discriminate]. rewrite (map_some_more f g ps qs (fun e b _ => H (snd e) b) E). exact (fun E => E).
Qed.

(** ** Writing through references is writing the tree *)

Section HeapWriting.
  Context {F : FloatIO}.

  Lemma map_to_yaml_eq {A B} (ty : A -> res node) (ty' : B -> res node) (f : A -> option B) m m' :
    (forall a b, f a = Some b -> ty a = ty' b) -> map_some f m = Some m' -> map_to_yaml skey_node ty m = map_to_yaml skey_node ty' m'.
  Proof.
    intros H E. apply map_some_iff in E as [E1 E2]. unfold map_to_yaml. rewrite E1.
    assert (G : map_res (entry_node skey_node ty) (ents m) = map_res (entry_node skey_node ty') (ents m') /\
      map_res (fun e => do p <- entry_node skey_node ty e; Ok (Map TMap [p])) (ents m) = map_res (fun e => do p <- entry_node skey_node ty' e; Ok (Map TMap [p])) (ents m')).
    { induction E2 as [|e e' l l' [X Y] _ [IH1 IH2]]; [split; reflexivity|].
      assert (N : entry_node skey_node ty e = entry_node skey_node ty' e') by (unfold entry_node; rewrite X, (H _ _ Y); reflexivity).
      split; cbn [map_res]; rewrite N, ?IH1, ?IH2; reflexivity. }
    destruct G as [G1 G2]. destruct (oord m); [rewrite G2|rewrite G1]; reflexivity.
  Qed.

  Lemma full_marshal_eq {A B} (ty : A -> res node) (ty' : B -> res node) (f : A -> option B) b x fs fs' c s s' o :
    (forall a b, f a = Some b -> ty a = ty' b) -> map_some (map_some f) fs = Some fs' -> in_spec f s = Some s' ->
    full_marshal ty b x fs c s o = full_marshal ty' b x fs' c s' o.
  Proof.
    intros H Ef Es. unfold full_marshal. cbv zeta.
    assert (N : forall o, ext_marshal ty b x fs o = ext_marshal ty' b x fs' o).
    { intros o'. unfold ext_marshal. cbv zeta. rewrite (map_some_nonempty _ _ _ Ef).
      unfold facets_to_yaml. rewrite (map_to_yaml_eq (types_to_yaml ty) (types_to_yaml ty') (map_some f) fs fs'); [reflexivity| |exact Ef].
      intros m m' E. exact (map_to_yaml_eq ty ty' f m m' H E). }
    rewrite N. clear N. assert (S : forall o, spec_marshal ty s o = spec_marshal ty' s' o); [|rewrite S; reflexivity].
    intros o'. destruct s as [|u mn mx [a|]| | | | |ps mn mx ad di dv|]; cbn [in_spec] in Es; try (injection Es as <-; reflexivity).
    - destruct (f a) as [b'|] eqn:E; [|discriminate]. injection Es as <-. cbn [spec_marshal option_map]. rewrite (H _ _ E). reflexivity.
    - destruct (map_some f ps) as [qs|] eqn:E; [|discriminate]. injection Es as <-. cbn [spec_marshal]. rewrite (map_some_nonempty _ _ _ E).
      unfold types_to_yaml. rewrite (map_to_yaml_eq ty ty' f ps qs H E). reflexivity.
  Qed.

  Lemma tree_written n : forall w r d, tree n w r = Some d -> h_to_yaml n w r = to_yaml d.
  Proof.
    induction n as [|n IH]; intros w r d H; [discriminate|]. cbn [tree h_to_yaml] in *. destruct (load w r) as [[b|b x f c s]|]; [| |discriminate].
    - injection H as <-. reflexivity.
    - destruct (map_some (map_some (tree n w)) f) as [f'|] eqn:Ef; [|discriminate]. cbn [obind] in H.
      destruct (in_spec (tree n w) s) as [s'|] eqn:Es; [|discriminate]. injection H as <-.
      rewrite to_yaml_eq. unfold to_yaml_body. cbn [type_marshal].
      rewrite (full_marshal_eq (h_to_yaml n w) to_yaml (tree n w) b x f f' c s s' [] (fun a b => IH w a b) Ef Es). reflexivity.
  Qed.

  Lemma tree_types_written n w m mm ds : nth_error (w_maps w) m = Some mm -> map_some (tree n w) mm = Some ds ->
    h_types_to_yaml n w m = types_to_yaml to_yaml ds.
  Proof. intros H E. unfold h_types_to_yaml. rewrite H. apply (map_to_yaml_eq _ _ (tree n w)); [apply tree_written|exact E]. Qed.
End HeapWriting.

Lemma tree_deeper n : forall w r d m, (n <= m)%nat -> tree n w r = Some d -> tree m w r = Some d.
Proof.
  induction n as [|n IH]; intros w r d m Hm H; [discriminate|]. destruct m as [|m]; [lia|]. cbn [tree] in *.
  destruct (load w r) as [[b|b x f c s]|]; [exact H| |discriminate].
  destruct (map_some (map_some (tree n w)) f) as [f'|] eqn:Ef; [|discriminate]. cbn [obind] in H.
  destruct (in_spec (tree n w) s) as [s'|] eqn:Es; [|discriminate].
  assert (G : forall a b, tree n w a = Some b -> tree m w a = Some b) by (intros a b' Ha; apply (IH w a b' m); [lia|exact Ha]).
  rewrite (map_some_more (map_some (tree n w)) (map_some (tree m w)) f f').
  - cbn [obind]. rewrite (in_spec_more _ _ _ _ G Es). exact H.
  - intros e b' _. apply map_some_more. intros e' b'' _. apply G.
  - exact Ef.
Qed.

(** ** The definitions directly below one *)

Definition spec_parts (s : spec nat) : list nat :=
  match s with SArray _ _ _ (Some i) => [i] | SObject ps _ _ _ _ _ => map snd (ents ps) | _ => [] end.
Definition parts (sh : shape nat) : list nat :=
  match sh with ShBase _ => [] | ShExt _ _ f _ s => flat_map (fun e => map snd (ents (snd e))) (ents f) ++ spec_parts s end.

Lemma load_inv w r sh : load w r = Some sh ->
  (exists b, nth_error (w_types w) r = Some (HBase b) /\ sh = ShBase b) \/
  (exists b x f c s fm fs sp, nth_error (w_types w) r = Some (HExt b x f c s) /\ nth_error (w_facets w) f = Some fm /\
     map_some (nth_error (w_maps w)) fm = Some fs /\ load_spec w s = Some sp /\ sh = ShExt b x fs c sp).
Proof.
  unfold load. destruct (nth_error (w_types w) r) as [[b|b x f c s]|]; cbn [obind]; [| |discriminate].
  - intros H. injection H as <-. left. exists b. auto.
  - destruct (nth_error (w_facets w) f) as [fm|] eqn:E1; [|discriminate]. cbn [obind].
    destruct (map_some (nth_error (w_maps w)) fm) as [fs|] eqn:E2; [|discriminate]. cbn [obind].
    destruct (load_spec w s) as [sp|] eqn:E3; [|discriminate]. intros H. injection H as <-. right. exists b, x, f, c, s, fm, fs, sp. auto 6.
Qed.

Lemma parts_below w r sh r' : load w r = Some sh -> In r' (parts sh) -> strictly_below w (AType r) (AType r').
Proof.
  intros H Hi. apply load_inv in H as [[b [_ ->]]|[b [x [f [c [s [fm [fs [sp [H1 [H2 [H3 [H4 ->]]]]]]]]]]]]]; [destruct Hi|].
  cbn [parts] in Hi. apply in_app_or in Hi as [Hi|Hi].
  - apply in_flat_map in Hi as [e [He Hr]]. apply in_map_iff in Hr as [[k r1] [Hr1 Hr]]. cbn in Hr1. subst r1.
    apply map_some_iff in H3 as [_ H3]. assert (G : exists e0, In e0 (ents fm) /\ nth_error (w_maps w) (snd e0) = Some (snd e)).
    { clear - H3 He. induction H3 as [|x y l l' [X Y] _ IH]; [destruct He|]. destruct He as [<-|He]; [exists x; split; [left; reflexivity|exact Y]|].
      destruct (IH He) as [e0 [Q1 Q2]]. exists e0. split; [right; exact Q1|exact Q2]. }
    destruct G as [[k0 m] [G1 G2]]. cbn in G2.
    eapply t_trans; [apply t_step; eapply holds_facets; exact H1|]. eapply t_trans; [apply t_step; eapply holds_map; eassumption|].
    apply t_step. eapply holds_type; eassumption.
  - destruct s as [u mn mx it|p mn mx ad di dv|s]; cbn [load_spec] in H4.
    + injection H4 as <-. cbn [spec_parts] in Hi. destruct it as [i|]; [|destruct Hi]. destruct Hi as [<-|[]]. apply t_step. eapply holds_items. exact H1.
    + destruct (nth_error (w_maps w) p) as [mm|] eqn:E; [|discriminate]. injection H4 as <-. cbn [spec_parts] in Hi.
      apply in_map_iff in Hi as [[k r1] [Hr1 Hi]]. cbn in Hr1. subst r1.
      eapply t_trans; [apply t_step; eapply holds_properties; exact H1|]. apply t_step. eapply holds_type; eassumption.
    + injection H4 as <-. destruct s; destruct Hi.
Qed.

Lemma strictly_then w a b : strictly_below w a b -> below w a b.
Proof. intros H. induction H as [x y H|x y z _ I1 _ I2]; [apply rt_step; exact H|eapply rt_trans; eassumption]. Qed.

Lemma strictly_below_trans w a b c : strictly_below w a b -> below w b c -> strictly_below w a c.
Proof.
  intros H1 H2. apply clos_rt_rtn1_iff in H2. induction H2 as [|y z H _ IH]; [exact H1|]. eapply t_trans; [exact IH|apply t_step; exact H].
Qed.

Lemma complete_loads w r : complete w (AType r) -> exists sh, load w r = Some sh.
Proof.
  intros H. assert (E : exists_in w (AType r)) by (apply H; apply rt_refl). cbn in E. apply nth_error_Some in E.
  unfold load. destruct (nth_error (w_types w) r) as [[b|b x f c s]|] eqn:Er; [eexists; reflexivity| |congruence]. cbn [obind].
  assert (Hf : exists_in w (AFacets f)) by (apply H; apply rt_step; eapply holds_facets; exact Er). cbn in Hf. apply nth_error_Some in Hf.
  destruct (nth_error (w_facets w) f) as [fm|] eqn:Ef; [|congruence]. cbn [obind].
  destruct (map_some_total (nth_error (w_maps w)) fm) as [fs Efs].
  { intros [k m] He. assert (Hm : exists_in w (AMap m)).
    { apply H. eapply rt_trans; apply rt_step; [eapply holds_facets; exact Er|eapply holds_map; eassumption]. }
    cbn in Hm. apply nth_error_Some in Hm. cbn. destruct (nth_error (w_maps w) m) as [mm|]; [eauto|congruence]. }
  rewrite Efs. cbn [obind]. destruct s as [u mn mx it|p mn mx ad di dv|s]; cbn [load_spec obind]; try (eexists; reflexivity).
  assert (Hp : exists_in w (AMap p)) by (apply H; apply rt_step; eapply holds_properties; exact Er). cbn in Hp. apply nth_error_Some in Hp.
  destruct (nth_error (w_maps w) p) as [mm|]; [eexists; reflexivity|congruence].
Qed.

Lemma complete_below w a b : complete w a -> below w a b -> complete w b.
Proof. intros H Hb c Hc. apply H. eapply rt_trans; eassumption. Qed.
Lemma no_cycle_below w a b : no_cycle w a -> below w a b -> no_cycle w b.
Proof. intros H Hb c Hc. apply H. eapply rt_trans; eassumption. Qed.

Lemma NoDup_bounded (l : list nat) N : NoDup l -> (forall x, In x l -> (x < N)%nat) -> (List.length l <= N)%nat.
Proof.
  intros H1 H2. rewrite <- (seq_length N 0). apply NoDup_incl_length; [exact H1|]. intros x Hx. apply in_seq. specialize (H2 x Hx). lia.
Qed.

Lemma tree_of_parts w n r sh : load w r = Some sh -> (forall r', In r' (parts sh) -> exists d, tree n w r' = Some d) -> exists d, tree (S n) w r = Some d.
Proof.
  intros H Hp. cbn [tree]. rewrite H. destruct sh as [b|b x f c s]; [eexists; reflexivity|].
  destruct (map_some_total (map_some (tree n w)) f) as [f' Ef].
  { intros e He. apply map_some_total. intros e' He'. apply Hp. cbn [parts]. apply in_or_app. left. apply in_flat_map. exists e. split; [exact He|apply in_map; exact He']. }
  rewrite Ef. cbn [obind]. assert (G : exists s', in_spec (tree n w) s = Some s').
  { assert (Hs : forall r', In r' (spec_parts s) -> exists d, tree n w r' = Some d) by (intros r' Hr; apply Hp; cbn [parts]; apply in_or_app; right; exact Hr).
    destruct s as [|u mn mx [i|]| | | | |ps mn mx ad di dv|]; cbn [in_spec]; try (eexists; reflexivity).
    - destruct (Hs i (or_introl eq_refl)) as [d Hd]. rewrite Hd. eexists. reflexivity.
    - destruct (map_some_total (tree n w) ps) as [qs Eq]; [intros e He; apply Hs; cbn; apply in_map; exact He|]. rewrite Eq. eexists. reflexivity. }
  destruct G as [s' Es]. rewrite Es. eexists. reflexivity.
Qed.

Lemma no_cycle_tree_aux w k : forall visited r, NoDup visited -> (forall v, In v visited -> (v < List.length (w_types w))%nat) ->
  (k + List.length visited = List.length (w_types w))%nat -> complete w (AType r) -> no_cycle w (AType r) ->
  (forall v, In v visited -> strictly_below w (AType v) (AType r)) -> exists d, tree k w r = Some d.
Proof.
  induction k as [|k IH]; intros visited r Nd Hb Hk Hc Hn Hv.
  all: assert (Hr : ~ In r visited) by (intros Hi; apply (Hn (AType r) (rt_refl _ _ _)); apply Hv; exact Hi).
  all: assert (Hl : exists_in w (AType r)) by (apply Hc; apply rt_refl); cbn in Hl.
  all: assert (Nd' : NoDup (r :: visited)) by (constructor; assumption).
  all: assert (Hb' : forall v, In v (r :: visited) -> (v < List.length (w_types w))%nat) by (intros v [<-|Hi]; [exact Hl|exact (Hb v Hi)]).
  - pose proof (NoDup_bounded _ _ Nd' Hb') as L. cbn [List.length] in L. lia.
  - destruct (complete_loads w r Hc) as [sh Hs]. apply (tree_of_parts w k r sh Hs). intros r' Hp.
    pose proof (parts_below w r sh r' Hs Hp) as S. pose proof (strictly_then _ _ _ S) as B.
    apply (IH (r :: visited) r' Nd' Hb'); [cbn [List.length]; lia|exact (complete_below _ _ _ Hc B)|exact (no_cycle_below _ _ _ Hn B)|].
    intros v [<-|Hi]; [exact S|]. eapply t_trans; [apply Hv; exact Hi|exact S].
Qed.

Lemma no_cycle_tree w r : complete w (AType r) -> no_cycle w (AType r) -> exists d, tree (List.length (w_types w)) w r = Some d.
Proof.
  intros Hc Hn. apply (no_cycle_tree_aux w _ [] r); try assumption; [constructor|intros v []|cbn; lia|intros v []].
Qed.

(** ** A tree has no cycle *)

Definition fine (w : world) (a : addr) : Prop := Acc (fun b a => holds w a b) a /\ complete w a.

Lemma fine_intro w a : exists_in w a -> (forall b, holds w a b -> fine w b) -> fine w a.
Proof.
  intros He H. split; [constructor; intros b Hb; exact (proj1 (H b Hb))|]. intros c Hc. apply clos_rt_rt1n_iff in Hc. destruct Hc as [|y z Hy Hz]; [exact He|].
  apply (proj2 (H y Hy)). apply clos_rt_rt1n_iff. exact Hz.
Qed.

Lemma nth_exists {A} (l : list A) i a : nth_error l i = Some a -> (i < List.length l)%nat.
Proof. intros H. apply nth_error_Some. congruence. Qed.

Lemma fine_map w m mm : nth_error (w_maps w) m = Some mm -> (forall e, In e (ents mm) -> fine w (AType (snd e))) -> fine w (AMap m).
Proof.
  intros Hm H. apply fine_intro; [exact (nth_exists _ _ _ Hm)|]. intros b Hb. inversion Hb as [| | |m' mm' k r E Hi|]; subst.
  rewrite Hm in E. injection E as <-. exact (H (k, r) Hi).
Qed.

Lemma tree_fine n : forall w r d, tree n w r = Some d -> fine w (AType r).
Proof.
  induction n as [|n IH]; intros w r d H; [discriminate|]. cbn [tree] in H. destruct (load w r) as [sh|] eqn:L; [|discriminate].
  apply load_inv in L as [[b [Hr ->]]|[b [x [f [c [s [fm [fs [sp [H1 [H2 [H3 [H4 ->]]]]]]]]]]]]].
  - apply fine_intro; [exact (nth_exists _ _ _ Hr)|]. intros a Ha. inversion Ha; subst; congruence.
  - destruct (map_some (map_some (tree n w)) fs) as [f'|] eqn:Ef; [|discriminate]. cbn [obind] in H.
    destruct (in_spec (tree n w) sp) as [s'|] eqn:Es; [|discriminate]. clear H.
    apply fine_intro; [exact (nth_exists _ _ _ H1)|]. intros a Ha.
    inversion Ha as [r0 b0 x0 f0 c0 s0 E|r0 b0 x0 f0 c0 u mn mx i E|r0 b0 x0 f0 c0 p mn mx ad di dv E| |]; subst; rewrite H1 in E; injection E; intros; subst.
    + apply fine_intro; [exact (nth_exists _ _ _ H2)|]. intros a' Ha'. inversion Ha' as [| | | |f1 fm1 k m E1 Hi]; subst. rewrite H2 in E1. injection E1 as <-.
      destruct (map_some_each _ _ _ _ H3 Hi) as [mm [Em Hin]]. cbn in Em. apply (fine_map w m mm Em). intros e He.
      destruct (map_some_each _ _ _ _ Ef Hin) as [ds [Ed _]]. cbn in Ed. destruct (map_some_each _ _ _ _ Ed He) as [d' [Hd _]]. exact (IH w _ _ Hd).
    + cbn [load_spec] in H4. injection H4 as <-. cbn [in_spec] in Es. destruct (tree n w i) as [d'|] eqn:Ei; [|discriminate]. exact (IH w i d' Ei).
    + cbn [load_spec] in H4. destruct (nth_error (w_maps w) p) as [mm|] eqn:Em; [|discriminate]. injection H4 as <-. cbn [in_spec] in Es.
      destruct (map_some (tree n w) mm) as [qs|] eqn:Eq; [|discriminate]. apply (fine_map w p mm Em). intros e He.
      destruct (map_some_each _ _ _ _ Eq He) as [d' [Hd _]]. exact (IH w _ _ Hd).
Qed.

Lemma acc_no_loop w a : Acc (fun b a => holds w a b) a -> ~ strictly_below w a a.
Proof.
  intros H. induction H as [a _ IH]. intros L. apply clos_trans_t1n_iff in L. inversion L as [y Hy|y z Hy Hz]; subst.
  - exact (IH a Hy (t_step _ _ _ _ Hy)).
  - apply (IH y Hy). apply clos_trans_t1n_iff in Hz. eapply t_trans; [exact Hz|apply t_step; exact Hy].
Qed.

Lemma acc_below w a b : Acc (fun b a => holds w a b) a -> below w a b -> Acc (fun b a => holds w a b) b.
Proof.
  intros H Hb. apply clos_rt_rt1n_iff in Hb. induction Hb as [|x y z Hx _ IH]; [exact H|]. apply IH. inversion H as [H0]. exact (H0 y Hx).
Qed.

Lemma tree_iff w r : (exists n d, tree n w r = Some d) <-> complete w (AType r) /\ no_cycle w (AType r).
Proof.
  split.
  - intros [n [d H]]. apply tree_fine in H as [H1 H2]. split; [exact H2|]. intros b Hb. apply acc_no_loop. exact (acc_below _ _ _ H1 Hb).
  - intros [H1 H2]. destruct (no_cycle_tree w r H1 H2) as [d H]. eauto.
Qed.

Lemma no_cycle_written {F : FloatIO} w r : complete w (AType r) -> no_cycle w (AType r) ->
  exists d, tree (List.length (w_types w)) w r = Some d /\ forall depth, (List.length (w_types w) <= depth)%nat -> h_to_yaml depth w r = to_yaml d.
Proof.
  intros H1 H2. destruct (no_cycle_tree w r H1 H2) as [d H]. exists d. split; [exact H|]. intros depth Hd. apply tree_written. exact (tree_deeper _ _ _ _ _ Hd H).
Qed.
