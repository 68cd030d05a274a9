(** What a getter answers for a type definition that was read. *)
From Coq Require Import SpecFloat.
From Verif Require Import Base Num OMap OMapSpec Keys Yaml Values Assign Formats Meta Out Xml Example DataType Marshal
  AssignProofs TypeFacts Fields FieldProofs FacetSpec FacetProofs DocProofs OrderProofs PathProofs TypeWrite Segs ExProofs Same ExRound TypeSegs WriteSpec WriteProofs
  ReadInv RoundSpec.

(** A map that was read: the flag is that of a new map, the keys are distinct, [Q] holds of every entry. *)
Definition map_read {V} (b : bool) (Q : string -> V -> Prop) (m : amap string V) : Prop :=
  oord m = b /\ NoDup (map fst (ents m)) /\ forall k v, In (k, v) (ents m) -> Q k v.

Definition is_node (v : gval) : Prop := exists n, v = GNode n.

Definition ann_read (a : untyped) : Prop := map_read true (fun _ => is_node) a.

Definition field_read {F : FloatIO} (P : dtype -> Prop) (k : dkind) (f : field) (v : fval) : Prop :=
  match v with
  | VInt z => (0 <= z < 2 ^ 64)%Z
  | VOptInt (Some z) => if signed f then (- 2 ^ 63 <= z <= 2 ^ 63 - 1)%Z else (0 <= z < 2 ^ 64)%Z
  | VOptVal (Some g) => f <> FDefault /\ is_node g
  | VVals (Some l) => l <> [] /\ forall g, In g l -> exists n, enum_elem k n = Ok g
  | VOptType (Some t) => P t
  | VTypes m => map_read false (fun _ t => P t /\ d_kind t <> TyNil /\ d_kind t <> TyInclude) m
  | VFacets m => map_read true (fun _ m' => map_read true (fun _ t => P t) m') m
  | VAnns m => map_read true (fun s a => starts_paren s = true /\ ann_read a) m
  | VEx (Some e) => has_example k = true /\ exists n, read_ex k n = Ok e
  | VExs m => map_read false (fun _ e => exists n, read_ex k n = Ok e) m
  | VExtra m => oord m = true /\ forall a g, In (a, g) (ents m) -> (exists s, a = KStr s) /\ is_node g
  | _ => True
  end.

Lemma map_read_new {V} b Q : map_read b Q (@mkMap string V [] b).
Proof. repeat split; [constructor|intros k v []]. Qed.

Lemma map_read_put {V} b Q (m : amap string V) k v : map_read b Q m -> Q k v -> map_read b Q (mput k v m).
Proof.
  intros [H1 [H2 H3]] H. split; [exact H1|]. split; [apply sput_nodup; exact H2|].
  intros k' v' Hi. cbn in Hi. unfold sput, sdelete in Hi. apply in_app_or in Hi as [Hi|[Hi|[]]].
  - apply filter_In in Hi as [Hi _]. auto.
  - injection Hi as <- <-. exact H.
Qed.

Lemma map_read_puts {V} b Q (kvs : list (string * V)) : forall m, map_read b Q m -> (forall k v, In (k, v) kvs -> Q k v) -> map_read b Q (mputs kvs m).
Proof.
  induction kvs as [|[k v] kvs IH]; intros m Hm H; [exact Hm|]. cbn. apply IH.
  - apply map_read_put; [exact Hm|apply H; left; reflexivity].
  - intros; apply H; right; assumption.
Qed.

Lemma accepts_all {V} (dec : node -> res V) l kvs k v : Forall2 (accepts dec) l kvs -> In (k, v) kvs ->
  exists key n, In (key, n) l /\ dec n = Ok v.
Proof.
  intros H. induction H as [|[key n] [k' v'] l kvs [A B] H IH]; [intros []|]. intros [E|Hi].
  - injection E as <- <-. exists key, n. split; [left; reflexivity|exact B].
  - destruct (IH Hi) as [key' [n' [H1 H2]]]. exists key', n'. split; [right; exact H1|exact H2].
Qed.

Lemma read_amap_read {V} (dec : node -> res V) b Q m n m' : read_amap dec m n = Ok m' -> map_read b Q m ->
  (forall v nv, node_size nv < node_size n -> dec nv = Ok v -> forall k, Q k v) -> map_read b Q m'.
Proof.
  intros H Hm Hq. apply read_amap_map in H as [t [l [kvs [-> [Hl ->]]]]]. apply map_read_puts; [exact Hm|].
  intros k v Hi. destruct (accepts_all _ _ _ _ _ Hl Hi) as [key [nv [H1 H2]]]. apply (Hq v nv); [|exact H2].
  eapply size_map_val. exact H1.
Qed.

Lemma annotation_read n a : read_annotation n = Ok a -> ann_read a.
Proof.
  intros H. eapply read_amap_read; [exact H|apply map_read_new|]. intros v nv _ E k. injection E as <-. exists nv. reflexivity.
Qed.

Lemma uint_range z : (- 2 ^ 63 <= z <= 2 ^ 63 - 1)%Z -> (0 <= uint_of_int64 z < 2 ^ 64)%Z.
Proof.
  intros H. destruct (Z.ltb_spec z 0) as [L|L].
  - rewrite uint_of_int64_neg; unfold min_int64; lia.
  - rewrite (proj2 (uint_in_range z H) L). lia.
Qed.

Lemma to_int_in n z : to_int n = Ok z -> (- 2 ^ 63 <= z <= 2 ^ 63 - 1)%Z.
Proof. intros H. apply denotes_int_iff in H. destruct H as [_ H]. exact H. Qed.

Section Read.
  Context {F : FloatIO}.
  Variable rd : node -> res dtype.

  Lemma step_read P kd f key val old v :
    same_sort old (default_value kd f) = true ->
    (forall n t, node_size n <= node_size val -> rd n = Ok t -> P t /\ shaped t) ->
    (f = FAnns -> starts_paren (value key) = true) ->
    field_read P kd f old -> step rd kd f key val old = Ok v -> field_read P kd f v.
  Proof.
    intros So Hrd Hp Ho H.
    assert (U : forall (g : Z -> fval), (do z <- to_int val; Ok (g (uint_of_int64 z))) = Ok v ->
              (forall z, (0 <= z < 2 ^ 64)%Z -> field_read P kd f (g z)) -> field_read P kd f v).
    { intros g E Hg. apply bind_ok in E as [z [Hz E]]. injection E as <-. apply Hg, uint_range, (to_int_in val). exact Hz. }
    assert (B : forall A (r : res A) (g : A -> fval), (do a <- r; Ok (g a)) = Ok v -> exists a, r = Ok a /\ v = g a).
    { intros A r g E. apply bind_ok in E as [a [Ha E]]. injection E as <-. eauto. }
    destruct f; destruct old; try (destruct kd; discriminate So); cbn [step] in H; try discriminate H;
      try (apply B in H as [a [Ha ->]]; exact I);
      try (apply (U VInt) in H; [exact H|intros z0 Hz; exact Hz]);
      try (apply (U (fun z => VOptInt (Some z))) in H; [exact H|intros z0 Hz; exact Hz]).
    - injection H as <-. destruct Ho as [H1 H2]. split; [exact H1|]. intros a g Hi. cbn in Hi. unfold sput, sdelete in Hi.
      apply in_app_or in Hi as [Hi|[Hi|[]]]; [apply filter_In in Hi as [Hi _]; auto|].
      injection Hi as <- <-. split; [eauto|eexists; reflexivity].
    - apply B in H as [a [Ha ->]]. cbn. apply map_read_put; [exact Ho|]. split; [auto|]. eapply annotation_read; exact Ha.
    - apply B in H as [m' [Ha ->]]. cbn. eapply read_amap_read; [exact Ha|exact Ho|]. intros v0 nv Hsz E _.
      eapply read_amap_read; [exact E|apply map_read_new|]. intros t nt Hs2 E2 _. apply (Hrd nt); [lia|exact E2].
    - destruct (has_example kd) eqn:He; [|discriminate H]. apply B in H as [e [Ha ->]]. cbn. rewrite He. split; [reflexivity|eauto].
    - apply B in H as [m' [Ha ->]]. cbn. eapply read_amap_read; [exact Ha|exact Ho|]. intros v0 nv _ E _. eauto.
    - apply B in H as [l' [Ha ->]]. apply read_enum_iff in Ha. destruct Ha as [t [ns [vs [E0 [Hv E]]]]].
      assert (Q : forall g, In g (opt_list o) -> exists n, enum_elem kd n = Ok g).
      { destruct o as [l0|]; [|intros g []]. destruct Ho as [_ Ho]. exact Ho. }
      assert (Q' : forall g, In g vs -> exists n, enum_elem kd n = Ok g).
      { intros g Hg. clear -Hv Hg. induction Hv as [|a b l l' A _ IH]; [destruct Hg|]. destruct Hg as [<-|Hg]; [|auto]. exists a. apply enum_elem_iff. exact A. }
      subst l'. destruct vs as [|g0 vs]; [exact Ho|]. cbn [field_read]. split; [destruct (opt_list o); discriminate|].
      intros g Hg. apply in_app_or in Hg as [Hg|Hg]; auto.
    - apply B in H as [t [Ha ->]]. cbn. apply (Hrd val); [lia|exact Ha].
    - apply B in H as [z [Hz ->]]. cbn. apply (to_int_in val). exact Hz.
    - apply B in H as [z [Hz ->]]. cbn. apply (to_int_in val). exact Hz.
    - apply B in H as [m' [Ha ->]]. cbn. eapply read_amap_read; [exact Ha|exact Ho|]. intros v0 nv Hsz E _. apply bind_ok in E as [t [E1 E2]].
      destruct t as [b|b x fs c s]; [discriminate E2|]. injection E2 as <-. destruct (Hrd nv _ ltac:(lia) E1) as [P1 P2]. split; [exact P1|].
      destruct (shaped_cases b x fs c s P2) as [N1 [N2 _]]. auto.
    - injection H as <-. cbn. split; [discriminate|eexists; reflexivity].
  Qed.

  Lemma fold_step_read P kd f l : forall old v,
    same_sort old (default_value kd f) = true ->
    (forall e n t, In e l -> node_size n <= node_size (snd e) -> rd n = Ok t -> P t /\ shaped t) ->
    (f = FAnns -> forall e, In e l -> starts_paren (value (fst e)) = true) ->
    (exists d0, getf f d0 = Some old) ->
    field_read P kd f old -> fold_res (stepper rd kd f) old l = Ok v -> field_read P kd f v.
  Proof.
    induction l as [|e l IH]; intros old v So Hrd Hp [d0 G] Ho H; [injection H as <-; exact Ho|].
    cbn [fold_res] in H. apply bind_ok in H as [w [Hw H]]. unfold stepper in Hw.
    pose proof (step_sort rd kd f (fst e) (snd e) d0 old w G Hw) as Sw.
    apply (IH w v); [| | | | |exact H].
    - destruct w; destruct old; try discriminate Sw; exact So.
    - intros e' n t He. apply Hrd. right; exact He.
    - intros Ef e' He. apply Hp; [exact Ef|right; exact He].
    - exists (setf f w d0). apply getf_setf_same. exists old. split; [exact G|exact Sw].
    - eapply step_read; [exact So| | |exact Ho|exact Hw].
      + intros n t. apply (Hrd e). left; reflexivity.
      + intros Ef. apply Hp; [exact Ef|left; reflexivity].
  Qed.
End Read.

Lemma new_read {F : FloatIO} P k f s v : getf f (set_schema s (new_type k)) = Some v -> field_read P k f v.
Proof.
  intros G. destruct k; destruct f; cbn in G; try discriminate G; injection G as <-; cbn;
    try exact I; try (apply map_read_new); try (split; [reflexivity|intros a g []]);
    unfold ArrayDefaultMinItems, ArrayDefaultMaxItems, FileDefaultMinLength, FileDefaultMaxLength, StringDefaultMinLength; lia.
Qed.

(** Everything a getter of a type that was read answers; the types inside were themselves read, from smaller nodes. *)
Lemma hat_read {F : FloatIO} n d : hat n = Ok d -> forall f v, getf f d = Some v ->
  field_read (fun t => exists n', node_size n' < node_size n /\ hat n' = Ok t) (d_kind d) f v.
Proof.
  intros H f v G. destruct (is_map n) eqn:Em.
  2:{ rewrite (scalar_read n d Em H) in G. eapply new_read. exact G. }
  destruct n as [| |t l]; try discriminate. destruct (is_string (Map t l)) eqn:Es.
  { rewrite hat_eq in H. unfold hat_body in H. rewrite Es in H. injection H as <-. rewrite type_to_kind_eq in *.
    rewrite d_kind_set, d_kind_new. eapply new_read. exact G. }
  assert (Ht : t <> TStr) by (intros ->; discriminate).
  destruct (hat_start t l d Ht H) as [sc [_ [Hf [Hs Hd]]]].
  set (d0 := set_schema sc (new_type (d_kind d))) in *.
  destruct (getf f d0) as [old|] eqn:Eo.
  2:{ pose proof (fold_kind _ _ _ _ Hf) as [_ S]. rewrite (getf_shape f d0 d) in G; [discriminate| |exact Eo].
      rewrite same_shape_sym. exact S. }
  destruct (fold_fields _ _ _ _ Hf f old Eo) as [w [Hw Hfold]]. rewrite G in Hw. injection Hw as <-. rewrite Hd in Hfold.
  eapply fold_step_read; [| | |exists d0; exact Eo|eapply new_read; exact Eo|exact Hfold].
  - rewrite <- Hd. apply get_spec_sort; assumption.
  - intros [k0 v0] n' t' He Hsz Hr. apply filter_In in He as [He _]. split; [|exact (hat_shaped _ _ Hr)].
    exists n'. split; [|exact Hr]. pose proof (size_map_val t l k0 v0 He). cbn [snd] in Hsz. lia.
  - intros -> e He. apply filter_In in He as [_ Ha]. apply (aims_anns d0 e Hs) in Ha. unfold is_annotation_key in Ha.
    apply andb_true_iff in Ha as [_ Ha]. exact Ha.
Qed.
