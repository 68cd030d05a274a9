(** What is written is finite: a definition that contains itself, or a nil pointer, is never written. *)
From Coq Require Import SpecFloat Relations Lia.
From Verif Require Import Base Num OMap OMapSpec Keys Yaml Values Assign Formats Meta Out Xml Example DataType Marshal Doc Api Library Setters Heap
  AssignProofs TypeFacts Fields FieldProofs FacetSpec FacetProofs DocProofs TypeWrite OrderProofs PathProofs HeapSpec HeapProofs HeapEdit.

Section Loop.
  Context {F : FloatIO}.

  Lemma oput_here k v o : In (KStr k, v) (oput (KStr k) v o).
  Proof. unfold oput, sput. apply in_or_app. right. left. reflexivity. Qed.

  Lemma oput_keeps k v k' v' o : gkey_eqb k k' = false -> In (k, v) o -> In (k, v) (oput k' v' o).
  Proof. intros N H. unfold oput, sput, sdelete. apply in_or_app. left. apply filter_In. split; [exact H|]. unfold other. cbn [fst]. rewrite N. reflexivity. Qed.

  Lemma oput_opt_keeps k v k' v' o : gkey_eqb k k' = false -> In (k, v) o -> In (k, v) (oput_opt k' v' o).
  Proof. destruct v'; [apply oput_keeps|auto]. Qed.

  Lemma oput_if_keeps k v c k' v' o : gkey_eqb k k' = false -> In (k, v) o -> In (k, v) (oput_if c k' v' o).
  Proof. destruct c; [apply oput_keeps|auto]. Qed.

  Lemma entries_ok {K V} (kn : K -> res node) (vn : V -> res node) m y e : map_to_yaml kn vn m = Ok y -> In e (ents m) -> exists z, vn (snd e) = Ok z.
  Proof.
    unfold map_to_yaml. intros H He. destruct (oord m); apply bind_ok in H as [l [H _]]; apply map_res_ok in H.
    - induction H as [|a b l1 l2 Hab _ IH]; [destruct He|]. destruct He as [->|He]; [|exact (IH He)].
      apply bind_ok in Hab as [p [Hab _]]. unfold entry_node in Hab. apply bind_ok in Hab as [k [_ Hab]]. apply bind_ok in Hab as [v [Hv _]]. eauto.
    - induction H as [|a b l1 l2 Hab _ IH]; [destruct He|]. destruct He as [->|He]; [|exact (IH He)].
      unfold entry_node in Hab. apply bind_ok in Hab as [k [_ Hab]]. apply bind_ok in Hab as [v [Hv _]]. eauto.
  Qed.

  Lemma short_or_full_ok o y k v : short_or_full o = Ok y -> In (KStr k, v) o -> k <> KeyType -> exists z, v = Ok z.
  Proof.
    unfold short_or_full. intros H Hi N. destruct (is_short o) eqn:E.
    - unfold is_short in E. apply andb_prop in E as [E1 E2]. apply Nat.eqb_eq in E1. destruct o as [|e [|e' o]]; try discriminate.
      destruct Hi as [->|[]]. exfalso. unfold shas in E2. cbn in E2. rewrite Bool.orb_false_r in E2 || idtac. apply N.
      revert E2. cbn. destruct (String.eqb_spec k KeyType); [auto|discriminate].
    - exact (entries_ok key_node (fun r => r) (mkMap o false) y (KStr k, v) H Hi).
  Qed.

  Ltac later := repeat (first [apply oput_keeps; [reflexivity|] | apply oput_opt_keeps; [reflexivity|] | apply oput_if_keeps; [reflexivity|]]).

  Lemma facets_put {T} (ty : T -> res node) b x f c s : nonempty f = true -> In (KStr KeyFacets, facets_to_yaml ty f) (full_marshal ty b x f c s []).
  Proof.
    intros H. unfold full_marshal. cbv zeta. later. unfold ext_marshal. cbv zeta. rewrite H.
    destruct s; cbn [spec_marshal]; later; cbn [oput_if]; apply oput_here.
  Qed.

  Lemma items_put {T} (ty : T -> res node) b x f c u mn mx i : In (KStr KeyItems, ty i) (full_marshal ty b x f c (SArray u mn mx (Some i)) []).
  Proof. unfold full_marshal. cbv zeta. later. cbn [spec_marshal]. cbn [oput_opt option_map]. apply oput_here. Qed.

  Lemma properties_put {T} (ty : T -> res node) b x f c ps mn mx ad di dv : nonempty ps = true ->
    In (KStr KeyProperties, types_to_yaml ty ps) (full_marshal ty b x f c (SObject ps mn mx ad di dv) []).
  Proof. intros H. unfold full_marshal. cbv zeta. later. cbn [spec_marshal]. rewrite H. cbn [oput_if]. apply oput_here. Qed.

  Lemma nonempty_of {K V} (m : amap K V) e : In e (ents m) -> nonempty m = true.
  Proof. unfold nonempty. destruct (ents m); [intros []|reflexivity]. Qed.

  Lemma full_parts_ok (ty : nat -> res node) b x f c s y r : short_or_full (full_marshal ty b x f c s []) = Ok y -> In r (parts (ShExt b x f c s)) ->
    exists z, ty r = Ok z.
  Proof.
    intros H Hr. cbn [parts] in Hr. apply in_app_or in Hr as [Hr|Hr].
    - apply in_flat_map in Hr as [e [He Hr]]. apply in_map_iff in Hr as [e' [<- He']].
      destruct (short_or_full_ok _ _ _ _ H (facets_put ty b x f c s (nonempty_of f e He))) as [z Hz]; [discriminate|].
      destruct (entries_ok _ _ _ _ e Hz He) as [z1 Hz1]. exact (entries_ok _ _ _ _ e' Hz1 He').
    - destruct s as [|u mn mx [i|]| | | | |ps mn mx ad di dv|]; cbn in Hr; try destruct Hr.
      + subst. destruct (short_or_full_ok _ _ _ _ H (items_put ty b x f c u mn mx r)) as [z Hz]; [discriminate|]. eauto.
      + contradiction.
      + apply in_map_iff in Hr as [e [<- He]].
        destruct (short_or_full_ok _ _ _ _ H (properties_put ty b x f c ps mn mx ad di dv (nonempty_of ps e He))) as [z Hz]; [discriminate|].
        exact (entries_ok _ _ _ _ e Hz He).
  Qed.

  Lemma written_tree n : forall w r y, h_to_yaml n w r = Ok y -> exists d, tree n w r = Some d /\ to_yaml d = Ok y.
  Proof.
    induction n as [|n IH]; intros w r y H; [discriminate|].
    assert (T : exists d, tree (S n) w r = Some d).
    { cbn [h_to_yaml] in H. destruct (load w r) as [sh|] eqn:L; [|discriminate]. apply (tree_of_parts w n r sh L). intros r' Hr'. destruct sh as [b|b x f c s]; [destruct Hr'|].
      destruct (full_parts_ok _ _ _ _ _ _ _ r' H Hr') as [z Hz]. destruct (IH _ _ _ Hz) as [d [Hd _]]. eauto. }
    destruct T as [d T]. exists d. split; [exact T|]. rewrite <- (tree_written _ _ _ _ T). exact H.
  Qed.

  (** What is written has neither a nil pointer nor a cycle. *)
  Lemma written_finite n w r y : h_to_yaml n w r = Ok y -> complete w (AType r) /\ no_cycle w (AType r).
  Proof. intros H. destruct (written_tree n w r y H) as [d [T _]]. apply tree_iff. eauto. Qed.
End Loop.
