(** Definitions nobody else holds behave as values (C76). *)
From Coq Require Import SpecFloat Relations Permutation.
From Verif Require Import Base Num OMap OMapSpec Keys Yaml Values Assign Formats Meta Out Xml Example DataType Marshal Doc Api Library Setters Heap
  AssignProofs TypeFacts Fields FieldProofs FacetSpec FacetProofs DocProofs TypeWrite OrderProofs PathProofs HeapSpec HeapProofs HeapEdit Live Deep.

(** ** Which objects a value is made of: each of them once, and in [L] *)

Definition own_list {A} (R : A -> nat -> list addr -> Prop) : list (string * A) -> list (string * nat) -> list addr -> Prop :=
  fix go ds l L :=
    match ds with
    | [] => l = [] /\ L = []
    | (k, a) :: ds => exists r l' L1 L2, l = (k, r) :: l' /\ L = L1 ++ L2 /\ R a r L1 /\ go ds l' L2
    end.
Definition own_map {A} (look : nat -> option (amap string nat)) (mk : nat -> addr) (R : A -> nat -> list addr -> Prop) (m : amap string A) (i : nat)
    (L : list addr) : Prop :=
  exists mm L', look i = Some mm /\ oord mm = oord m /\ NoDup (map fst (ents m)) /\ own_list R (ents m) (ents mm) L' /\ L = mk i :: L'.
Definition own_spec {A} (w : world) (R : A -> nat -> list addr -> Prop) (s : spec A) (h : hspec) (L : list addr) : Prop :=
  match s, h with
  | SArray u mn mx None, HArray u' mn' mx' None => (u, mn, mx) = (u', mn', mx') /\ L = []
  | SArray u mn mx (Some t), HArray u' mn' mx' (Some r) => (u, mn, mx) = (u', mn', mx') /\ R t r L
  | SObject ps mn mx ad di dv, HObject p mn' mx' ad' di' dv' =>
    (mn, mx, ad, di, dv) = (mn', mx', ad', di', dv') /\ own_map (nth_error (w_maps w)) AMap R ps p L
  | _, HOther o => s = other_spec o /\ L = []
  | _, _ => False
  end.
Fixpoint own (w : world) (d : dtype) (r : nat) (L : list addr) : Prop :=
  match d with
  | TBase b => nth_error (w_types w) r = Some (HBase b) /\ L = [AType r]
  | TExt b x fs c s =>
    exists f h L1 L2, nth_error (w_types w) r = Some (HExt b x f c h) /\
      own_map (nth_error (w_facets w)) AFacets (own_map (nth_error (w_maps w)) AMap (own w)) fs f L1 /\
      own_spec w (own w) s h L2 /\ L = AType r :: L1 ++ L2
  end.
Definition own_types (w : world) := own_map (nth_error (w_maps w)) AMap (own w).
Definition own_facets (w : world) := own_map (nth_error (w_facets w)) AFacets (own_types w).
Definition own_part (w : world) (p : part) (a : addr) (L : list addr) : Prop :=
  match p, a with
  | PDef d, AType r => own w d r L
  | PTypes m, AMap i => own_types w m i L
  | PFacets m, AFacets f => own_facets w m f L
  | _, _ => False
  end.

(** ** Only the objects of the list matter *)

Lemma own_list_agree {A} (R R' : A -> nat -> list addr -> Prop) (P : addr -> Prop) ds :
  Forall (fun e => forall r L, R (snd e) r L -> (forall x, In x L -> P x) -> R' (snd e) r L) ds ->
  forall l L, own_list R ds l L -> (forall x, In x L -> P x) -> own_list R' ds l L.
Proof.
  induction 1 as [|[k a] ds H _ IH]; intros l L O P1; cbn [own_list] in *; [exact O|].
  destruct O as [r [l' [L1 [L2 [-> [-> [O1 O2]]]]]]]. exists r, l', L1, L2. split; [reflexivity|]. split; [reflexivity|]. split.
  - apply H; [exact O1|]. intros y Hy. apply P1, in_or_app. left. exact Hy.
  - apply IH; [exact O2|]. intros y Hy. apply P1, in_or_app. right. exact Hy.
Qed.

Lemma own_map_agree {A} look look' mk (R R' : A -> nat -> list addr -> Prop) (P : addr -> Prop) m :
  (forall i, P (mk i) -> look' i = look i) ->
  Forall (fun e => forall r L, R (snd e) r L -> (forall x, In x L -> P x) -> R' (snd e) r L) (ents m) ->
  forall i L, own_map look mk R m i L -> (forall x, In x L -> P x) -> own_map look' mk R' m i L.
Proof.
  intros E H i L (mm & L' & O1 & O2 & O3 & O4 & ->) P1. exists mm, L'. rewrite (E i (P1 _ (or_introl eq_refl))).
  split; [exact O1|]. split; [exact O2|]. split; [exact O3|]. split; [|reflexivity].
  apply (own_list_agree R R' P _ H); [exact O4|]. intros y Hy. apply P1. right. exact Hy.
Qed.

Lemma own_spec_agree w w' (s : spec dtype) h L :
  spec_all (fun d => forall r L, own w d r L -> (forall x, In x L -> agree w w' x) -> own w' d r L) s ->
  own_spec w (own w) s h L -> (forall x, In x L -> agree w w' x) -> own_spec w' (own w') s h L.
Proof.
  intros H O P. destruct s as [|u mn mx [t|]|fm|t mn mx|fm mn mx mu|fm mn mx mu|ps mn mx ad di dv|p mn mx]; destruct h as [u' mn' mx' [i|]|p' mn' mx' ad' di' dv'|o];
    cbn [own_spec spec_all] in *; try exact O; try contradiction.
  - destruct O as [E O]. split; [exact E|]. apply H; assumption.
  - destruct O as [E O]. split; [exact E|]. apply (own_map_agree (nth_error (w_maps w)) _ AMap (own w) _ (agree w w')); [intros j Hj; exact Hj| |exact O|exact P].
    eapply Forall_impl; [|exact H]. intros e He. exact He.
Qed.

Lemma own_agree w w' d : forall r L, own w d r L -> (forall x, In x L -> agree w w' x) -> own w' d r L.
Proof.
  induction d as [b|b x fs c s Hf Hs] using dtype_ind'; intros r L O P; cbn [own] in *.
  - destruct O as [O ->]. rewrite (P (AType r) (or_introl eq_refl) : nth_error (w_types w') r = _). split; [exact O|reflexivity].
  - destruct O as (f & h & L1 & L2 & O1 & O2 & O3 & ->). exists f, h, L1, L2.
    rewrite (P (AType r) (or_introl eq_refl) : nth_error (w_types w') r = _). split; [exact O1|].
    assert (P1 : forall y, In y L1 -> agree w w' y) by (intros y Hy; apply P; right; apply in_or_app; left; exact Hy).
    assert (P2 : forall y, In y L2 -> agree w w' y) by (intros y Hy; apply P; right; apply in_or_app; right; exact Hy).
    split; [|split; [|reflexivity]].
    + apply (own_map_agree (nth_error (w_facets w)) _ AFacets (own_map (nth_error (w_maps w)) AMap (own w)) _ (agree w w')); [intros j Hj; exact Hj| |exact O2|exact P1].
      eapply Forall_impl; [|exact Hf]. intros e He i L. apply own_map_agree; [intros j Hj; exact Hj|]. exact He.
    + apply (own_spec_agree w w'); assumption.
Qed.

Lemma own_types_agree w w' m i L : own_types w m i L -> (forall x, In x L -> agree w w' x) -> own_types w' m i L.
Proof.
  apply own_map_agree; [intros j Hj; exact Hj|]. apply Forall_forall. intros e _. apply own_agree.
Qed.
Lemma own_facets_agree w w' m i L : own_facets w m i L -> (forall x, In x L -> agree w w' x) -> own_facets w' m i L.
Proof.
  apply own_map_agree; [intros j Hj; exact Hj|]. apply Forall_forall. intros e _. apply own_types_agree.
Qed.
Lemma own_part_agree w w' p a L : own_part w p a L -> (forall x, In x L -> agree w w' x) -> own_part w' p a L.
Proof.
  destruct p, a; cbn [own_part]; try contradiction; [apply own_agree|apply own_types_agree|apply own_facets_agree].
Qed.

(** ** They exist *)

Lemma nth_here {A} (l : list A) i a : nth_error l i = Some a -> (i < List.length l)%nat.
Proof. intros H. apply nth_error_Some. rewrite H. discriminate. Qed.

Lemma own_list_in {A} (R : A -> nat -> list addr -> Prop) (P : addr -> Prop) ds :
  Forall (fun e => forall r L, R (snd e) r L -> forall x, In x L -> P x) ds -> forall l L, own_list R ds l L -> forall x, In x L -> P x.
Proof.
  induction 1 as [|[k a] ds H _ IH]; intros l L O y Hy; cbn [own_list] in O.
  - destruct O as [_ ->]. contradiction.
  - destruct O as [r [l' [L1 [L2 [-> [-> [O1 O2]]]]]]]. apply in_app_or in Hy. destruct Hy as [Hy|Hy]; [exact (H r L1 O1 y Hy)|exact (IH l' L2 O2 y Hy)].
Qed.
Lemma own_map_in {A} look mk (R : A -> nat -> list addr -> Prop) (P : addr -> Prop) m :
  (forall i, look i <> None -> P (mk i)) -> Forall (fun e => forall r L, R (snd e) r L -> forall x, In x L -> P x) (ents m) ->
  forall i L, own_map look mk R m i L -> forall x, In x L -> P x.
Proof.
  intros E H i L (mm & L' & O1 & O2 & O3 & O4 & ->) y [<-|Hy]; [apply E; rewrite O1; discriminate|]. exact (own_list_in R P _ H _ _ O4 y Hy).
Qed.
Lemma own_exists w d : forall r L, own w d r L -> forall x, In x L -> exists_in w x.
Proof.
  induction d as [b|b x fs c s Hf Hs] using dtype_ind'; intros r L O y Hy; cbn [own] in *.
  - destruct O as [O ->]. destruct Hy as [<-|[]]. exact (nth_here _ _ _ O).
  - destruct O as (f & h & L1 & L2 & O1 & O2 & O3 & ->). destruct Hy as [<-|Hy]; [exact (nth_here _ _ _ O1)|]. apply in_app_or in Hy. destruct Hy as [Hy|Hy].
    + revert y Hy. apply (own_map_in (nth_error (w_facets w)) AFacets (own_map (nth_error (w_maps w)) AMap (own w)) (exists_in w) fs) with (i := f);
        [intros i Hi; apply nth_error_Some, Hi| |exact O2].
      eapply Forall_impl; [|exact Hf]. intros e He i L. apply own_map_in; [intros j Hj; apply nth_error_Some, Hj|exact He].
    + destruct s as [|u mn mx [t|]|fm|t mn mx|fm mn mx mu|fm mn mx mu|ps mn mx ad di dv|p mn mx]; destruct h as [u' mn' mx' [i|]|p' mn' mx' ad' di' dv'|o];
        cbn [own_spec spec_all] in *; try contradiction; try (destruct O3 as [_ ->]; contradiction).
      * destruct O3 as [_ O3]. exact (Hs i L2 O3 y Hy).
      * destruct O3 as [_ O3]. revert y Hy. eapply own_map_in; [| |exact O3]; [intros j Hj; apply nth_error_Some, Hj|exact Hs].
Qed.
Lemma own_types_exists w m i L : own_types w m i L -> forall x, In x L -> exists_in w x.
Proof. apply own_map_in; [intros j Hj; apply nth_error_Some, Hj|]. apply Forall_forall. intros e _. apply own_exists. Qed.
Lemma own_facets_exists w m i L : own_facets w m i L -> forall x, In x L -> exists_in w x.
Proof. apply own_map_in; [intros j Hj; apply nth_error_Some, Hj|]. apply Forall_forall. intros e _. apply own_types_exists. Qed.
Lemma own_part_exists w p a L : own_part w p a L -> forall x, In x L -> exists_in w x.
Proof. destruct p, a; cbn [own_part]; try contradiction; [apply own_exists|apply own_types_exists|apply own_facets_exists]. Qed.

Lemma own_part_here w p a L : own_part w p a L -> exists L', L = a :: L'.
Proof.
  destruct p as [[b|b x fs c s]|m|m], a as [r|i|f]; cbn [own_part own]; try contradiction.
  - intros [_ ->]. eexists. reflexivity.
  - intros (f & h & L1 & L2 & _ & _ & _ & ->). eexists. reflexivity.
  - intros (mm & L' & _ & _ & _ & _ & ->). eexists. reflexivity.
  - intros (mm & L' & _ & _ & _ & _ & ->). eexists. reflexivity.
Qed.

(** ** A place below: the objects of the part there, and the others *)

Lemma sreplace_cons {A} k (a : A) k' b ds : sreplace String.eqb k a ((k', b) :: ds) = (if String.eqb k' k then (k', a) else (k', b)) :: sreplace String.eqb k a ds.
Proof. reflexivity. Qed.
Lemma sreplace_absent {A} k (a : A) ds : ~ In k (map fst ds) -> sreplace String.eqb k a ds = ds.
Proof.
  induction ds as [|[k' b] ds IH]; intros H; [reflexivity|]. rewrite sreplace_cons. cbn [map fst] in *. destruct (String.eqb_spec k' k) as [->|_]; [elim H; left; reflexivity|].
  f_equal. apply IH. intros I. apply H. right. exact I.
Qed.
Lemma sreplace_keys {A} k (a : A) ds : map fst (sreplace String.eqb k a ds) = map fst ds.
Proof.
  unfold sreplace. rewrite map_map. apply map_ext. intros [k' b]. cbn [fst]. destruct (String.eqb k' k); reflexivity.
Qed.
Lemma own_list_keys {A} (R : A -> nat -> list addr -> Prop) ds : forall l L, own_list R ds l L -> map fst l = map fst ds.
Proof.
  induction ds as [|[k a] ds IH]; intros l L O; cbn [own_list] in O.
  - destruct O as [-> _]. reflexivity.
  - destruct O as [r [l' [L1 [L2 [-> [_ [_ O]]]]]]]. cbn [map fst]. f_equal. exact (IH l' L2 O).
Qed.

Lemma sget_keys {A B} k (l : list (string * A)) (l' : list (string * B)) : map fst l = map fst l' -> sget String.eqb k l = None -> sget String.eqb k l' = None.
Proof.
  revert l'. induction l as [|[k1 a] l IH]; intros [|[k2 b] l'] E H; try discriminate; [reflexivity|]. cbn [map fst] in E. injection E as -> E.
  unfold sget in *. cbn [find fst] in *. destruct (String.eqb k2 k); [discriminate|]. exact (IH l' E H).
Qed.

Lemma own_list_hole {A} (R : A -> nat -> list addr -> Prop) k a ds : NoDup (map fst ds) -> sget String.eqb k ds = Some a -> forall l L, own_list R ds l L ->
  exists r L1 R0, sget String.eqb k l = Some r /\ R a r L1 /\ Permutation L (L1 ++ R0) /\
    forall (R' : A -> nat -> list addr -> Prop) a2 L2, R' a2 r L2 -> (forall b i M, R b i M -> (forall x, In x M -> In x R0) -> R' b i M) ->
      exists L3, own_list R' (sreplace String.eqb k a2 ds) l L3 /\ Permutation L3 (L2 ++ R0).
Proof.
  induction ds as [|[k' b] ds IH]; intros N G l L O; [discriminate|]. cbn [own_list] in O. destruct O as [r [l' [L1 [L2 [-> [-> [O1 O2]]]]]]].
  cbn [map fst] in N. inversion N as [|? ? N1 N2]; subst. unfold sget in G. cbn [find fst] in G. unfold sget. cbn [find fst].
  destruct (String.eqb_spec k' k) as [->|Hk].
  - cbn [option_map snd] in *. injection G as ->. exists r, L1, L2. split; [reflexivity|]. split; [exact O1|]. split; [reflexivity|].
    intros R' a2 M2 H2 C. exists (M2 ++ L2). split; [|reflexivity]. rewrite sreplace_cons, String.eqb_refl. cbn [own_list].
    exists r, l', M2, L2. split; [reflexivity|]. split; [reflexivity|]. split; [exact H2|]. rewrite (sreplace_absent k a2 ds N1).
    refine (own_list_agree R R' (fun x => In x L2) ds _ l' L2 O2 (fun x Hx => Hx)). apply Forall_forall. intros e _ i M. exact (C (snd e) i M).
  - destruct (IH N2 G l' L2 O2) as [r1 [M1 [R0 [G1 [O3 [P C]]]]]]. exists r1, M1, (L1 ++ R0). split; [exact G1|]. split; [exact O3|]. split.
    { rewrite P. rewrite !app_assoc. apply Permutation_app_tail, Permutation_app_comm. }
    intros R' a2 M2 H2 C2. destruct (C R' a2 M2 H2) as [L3 [O4 P3]].
    { intros c i M Hc Hx. apply (C2 c i M Hc). intros y Hy. apply in_or_app. right. exact (Hx y Hy). }
    exists (L1 ++ L3). split.
    + rewrite sreplace_cons. destruct (String.eqb_spec k' k) as [->|_]; [elim Hk; reflexivity|]. cbn [own_list]. exists r, l', L1, L3. split; [reflexivity|]. split; [reflexivity|].
      split; [|exact O4]. apply (C2 b r L1 O1). intros y Hy. apply in_or_app. left. exact Hy.
    + rewrite P3. rewrite !app_assoc. apply Permutation_app_tail, Permutation_app_comm.
Qed.

(** One getter. *)
Lemma own_hop w p a L g : own_part w p a L ->
  match get_part g p with
  | None => h_get w g a = None
  | Some q => exists a' L1 R0, h_get w g a = Some a' /\ own_part w q a' L1 /\ Permutation L (L1 ++ R0) /\
      forall w' q2 L2, own_part w' q2 a' L2 -> (forall x, In x R0 -> agree w w' x) -> exists L3, own_part w' (put_part g q2 p) a L3 /\ Permutation L3 (L2 ++ R0)
  end.
Proof.
  intros O. destruct p as [d|m|m], a as [r|i|f]; cbn [own_part] in O; try contradiction.
  - destruct d as [b|b x fs c s]; cbn [own] in O.
    { destruct O as [O _]. destruct g as [k| | |]; cbn [get_part h_get]; rewrite ?O; reflexivity. }
    destruct O as (f & h & L1 & L2 & O1 & O2 & O3 & ->). destruct g as [k| | |]; cbn [get_part h_get].
    + reflexivity.
    + rewrite O1. destruct s as [|u mn mx [t|]|fm|t mn mx|fm mn mx mu|fm mn mx mu|ps mn mx ad di dv|p mn mx]; destruct h as [u' mn' mx' [j|]|p' mn' mx' ad' di' dv'|o];
        cbn [own_spec option_map] in *; try contradiction; try reflexivity.
      2:{ destruct O3 as [O3 _]. destruct o; discriminate. }
      destruct O3 as [E O3]. injection E as <- <- <-. exists (AType j), L2, (AType r :: L1). split; [reflexivity|]. split; [exact O3|]. split.
      { change (AType r :: L1 ++ L2) with ((AType r :: L1) ++ L2). apply Permutation_app_comm. }
      intros w' q2 M2 H2 G. destruct q2 as [d2|m2|m2]; cbn [own_part] in H2; try contradiction. exists (AType r :: L1 ++ M2). cbn [put_part own_part own]. split.
      * exists f, (HArray u mn mx (Some j)), L1, M2. rewrite (G (AType r) (or_introl eq_refl) : nth_error (w_types w') r = _). split; [exact O1|]. split.
        { apply (own_facets_agree w); [exact O2|]. intros y Hy. apply G. right. exact Hy. }
        split; [|reflexivity]. cbn [own_spec]. split; [reflexivity|exact H2].
      * change (AType r :: L1 ++ M2) with ((AType r :: L1) ++ M2). apply Permutation_app_comm.
    + rewrite O1. destruct s as [|u mn mx [t|]|fm|t mn mx|fm mn mx mu|fm mn mx mu|ps mn mx ad di dv|p mn mx]; destruct h as [u' mn' mx' [j|]|p' mn' mx' ad' di' dv'|o];
        cbn [own_spec option_map] in *; try contradiction; try reflexivity.
      2:{ destruct O3 as [O3 _]. destruct o; discriminate. }
      destruct O3 as [E O3]. injection E as <- <- <- <- <-. exists (AMap p'), L2, (AType r :: L1). split; [reflexivity|]. split; [exact O3|]. split.
      { change (AType r :: L1 ++ L2) with ((AType r :: L1) ++ L2). apply Permutation_app_comm. }
      intros w' q2 M2 H2 G. destruct q2 as [d2|m2|m2]; cbn [own_part] in H2; try contradiction. exists (AType r :: L1 ++ M2). cbn [put_part own_part own]. split.
      * exists f, (HObject p' mn mx ad di dv), L1, M2. rewrite (G (AType r) (or_introl eq_refl) : nth_error (w_types w') r = _). split; [exact O1|]. split.
        { apply (own_facets_agree w); [exact O2|]. intros y Hy. apply G. right. exact Hy. }
        split; [|reflexivity]. cbn [own_spec]. split; [reflexivity|exact H2].
      * change (AType r :: L1 ++ M2) with ((AType r :: L1) ++ M2). apply Permutation_app_comm.
    + rewrite O1. exists (AFacets f), L1, (AType r :: L2). split; [reflexivity|]. split; [exact O2|]. split; [apply Permutation_middle|].
      intros w' q2 M2 H2 G. destruct q2 as [d2|m2|m2]; cbn [own_part] in H2; try contradiction. exists (AType r :: M2 ++ L2). cbn [put_part own_part own]. split.
      * exists f, h, M2, L2. rewrite (G (AType r) (or_introl eq_refl) : nth_error (w_types w') r = _). split; [exact O1|]. split; [exact H2|]. split; [|reflexivity].
        apply (own_spec_agree w); [|exact O3|intros y Hy; apply G; right; exact Hy].
        destruct s as [|u mn mx [t|]|fm|t mn mx|fm mn mx mu|fm mn mx mu|ps mn mx ad di dv|p mn mx]; cbn [spec_all]; try exact I; [apply own_agree|].
        apply Forall_forall. intros e _. apply own_agree.
      * apply Permutation_middle.
  - destruct g as [k| | |]; cbn [get_part h_get]; try reflexivity. destruct (sget String.eqb k (ents m)) as [d|] eqn:G; cbn [option_map].
    + destruct O as (mm & L' & O1 & O2 & O3 & O4 & ->). destruct (own_list_hole (own w) k d (ents m) O3 G _ _ O4) as [r [L1 [R0 [G1 [H1 [P C]]]]]].
      exists (AType r), L1, (AMap i :: R0). rewrite O1. cbn [obind]. rewrite G1. split; [reflexivity|]. split; [exact H1|]. split; [rewrite P; apply Permutation_middle|].
      intros w' q2 M2 H2 A. destruct q2 as [d2|m2|m2]; cbn [own_part] in H2; try contradiction. destruct (C (own w') d2 M2 H2) as [L3 [O5 P3]].
      { intros b j M Hb Hx. apply (own_agree w); [exact Hb|]. intros y Hy. apply A. right. exact (Hx y Hy). }
      exists (AMap i :: L3). cbn [put_part own_part]. split.
      * exists mm, L3. rewrite (A (AMap i) (or_introl eq_refl) : nth_error (w_maps w') i = _). split; [exact O1|]. split; [exact O2|]. cbn [ents oord]. rewrite sreplace_keys.
        split; [exact O3|]. split; [exact O5|reflexivity].
      * rewrite P3. apply Permutation_middle.
    + destruct O as (mm & L' & O1 & O2 & O3 & O4 & ->). rewrite O1. cbn [obind].
      rewrite (sget_keys k (ents m) (ents mm) (eq_sym (own_list_keys _ _ _ _ O4)) G). reflexivity.
  - destruct g as [k| | |]; cbn [get_part h_get]; try reflexivity. destruct (sget String.eqb k (ents m)) as [d|] eqn:G; cbn [option_map].
    + destruct O as (mm & L' & O1 & O2 & O3 & O4 & ->). destruct (own_list_hole (own_types w) k d (ents m) O3 G _ _ O4) as [r [L1 [R0 [G1 [H1 [P C]]]]]].
      exists (AMap r), L1, (AFacets f :: R0). rewrite O1. cbn [obind]. rewrite G1. split; [reflexivity|]. split; [exact H1|]. split; [rewrite P; apply Permutation_middle|].
      intros w' q2 M2 H2 A. destruct q2 as [d2|m2|m2]; cbn [own_part] in H2; try contradiction. destruct (C (own_types w') m2 M2 H2) as [L3 [O5 P3]].
      { intros b j M Hb Hx. apply (own_types_agree w); [exact Hb|]. intros y Hy. apply A. right. exact (Hx y Hy). }
      exists (AFacets f :: L3). cbn [put_part own_part]. split.
      * exists mm, L3. rewrite (A (AFacets f) (or_introl eq_refl) : nth_error (w_facets w') f = _). split; [exact O1|]. split; [exact O2|]. cbn [ents oord]. rewrite sreplace_keys.
        split; [exact O3|]. split; [exact O5|reflexivity].
      * rewrite P3. apply Permutation_middle.
    + destruct O as (mm & L' & O1 & O2 & O3 & O4 & ->). rewrite O1. cbn [obind].
      rewrite (sget_keys k (ents m) (ents mm) (eq_sym (own_list_keys _ _ _ _ O4)) G). reflexivity.
Qed.

Lemma sreplace_same {A} k (a : A) ds : NoDup (map fst ds) -> sget String.eqb k ds = Some a -> sreplace String.eqb k a ds = ds.
Proof.
  induction ds as [|[k' b] ds IH]; intros N G; [discriminate|]. cbn [map fst] in N. inversion N as [|? ? N1 N2]; subst. rewrite sreplace_cons.
  unfold sget in G. cbn [find fst] in G. destruct (String.eqb_spec k' k) as [->|_].
  - cbn [option_map snd] in G. injection G as ->. f_equal. apply sreplace_absent, N1.
  - f_equal. apply IH; assumption.
Qed.
Lemma put_same w p a L g q : own_part w p a L -> get_part g p = Some q -> put_part g q p = p.
Proof.
  intros O G. destruct g as [k| | |], p as [[b|b x fs c s]|m|m]; cbn [get_part] in G; try discriminate.
  - destruct a as [r|i|f]; cbn [own_part] in O; try contradiction. destruct O as (mm & L' & _ & _ & N & _). destruct (sget String.eqb k (ents m)) as [d|] eqn:E; [|discriminate].
    injection G as <-. cbn [put_part]. rewrite (sreplace_same k d _ N E). destruct m; reflexivity.
  - destruct a as [r|i|f]; cbn [own_part] in O; try contradiction. destruct O as (mm & L' & _ & _ & N & _). destruct (sget String.eqb k (ents m)) as [d|] eqn:E; [|discriminate].
    injection G as <-. cbn [put_part]. rewrite (sreplace_same k d _ N E). destruct m; reflexivity.
  - destruct s as [|u mn mx [t|]|fm|t mn mx|fm mn mx mu|fm mn mx mu|ps mn mx ad di dv|p mn mx]; try discriminate. injection G as <-. reflexivity.
  - destruct s as [|u mn mx [t|]|fm|t mn mx|fm mn mx mu|fm mn mx mu|ps mn mx ad di dv|p mn mx]; try discriminate. injection G as <-. reflexivity.
  - injection G as <-. reflexivity.
Qed.

(** A chain of getters. *)
Lemma own_walk w gs : forall p a L, own_part w p a L ->
  match h_walk w gs a with
  | None => forall e, edit_at gs e p = p
  | Some a' => exists q L1 R0, own_part w q a' L1 /\ Permutation L (L1 ++ R0) /\
      forall w' e L2, own_part w' (edit_part e q) a' L2 -> (forall x, In x R0 -> agree w w' x) -> exists L3, own_part w' (edit_at gs e p) a L3 /\ Permutation L3 (L2 ++ R0)
  end.
Proof.
  induction gs as [|g gs IH]; intros p a L O; cbn [h_walk edit_at].
  - exists p, L, []. split; [exact O|]. split; [rewrite app_nil_r; reflexivity|]. intros w' e L2 H _. exists L2. split; [exact H|]. rewrite app_nil_r. reflexivity.
  - pose proof (own_hop w p a L g O) as H. destruct (get_part g p) as [q|] eqn:G.
    2:{ rewrite H. cbn [obind]. reflexivity. }
    destruct H as [a1 [L1 [R0 [E [O1 [P C]]]]]]. rewrite E. cbn [obind]. specialize (IH q a1 L1 O1). destruct (h_walk w gs a1) as [a'|].
    + destruct IH as [q' [M1 [R1 [O2 [P1 C1]]]]]. exists q', M1, (R1 ++ R0). split; [exact O2|]. split; [rewrite P, P1, <- app_assoc; reflexivity|].
      intros w' e L2 H A. destruct (C1 w' e L2 H) as [L3 [O3 P3]]. { intros y Hy. apply A, in_or_app. left. exact Hy. }
      destruct (C w' (edit_at gs e q) L3 O3) as [L4 [O4 P4]]. { intros y Hy. apply A, in_or_app. right. exact Hy. }
      exists L4. split; [exact O4|]. rewrite P4, P3, <- app_assoc. reflexivity.
    + intros e. rewrite IH. exact (put_same w p a L g q O G).
Qed.

(** ** New objects *)

Definition grows (w w' : world) : Prop := forall x, exists_in w x -> agree w w' x.

Lemma agree_exists w w' x : exists_in w x -> agree w w' x -> exists_in w' x.
Proof.
  destruct x; cbn [exists_in agree]; intros E A; apply nth_error_Some; rewrite A; apply nth_error_Some; exact E.
Qed.
Lemma agree_refl w x : agree w w x.
Proof. destruct x; reflexivity. Qed.
Lemma agree_trans w w1 w2 x : agree w w1 x -> agree w1 w2 x -> agree w w2 x.
Proof. destruct x; cbn [agree]; congruence. Qed.
Lemma grows_refl w : grows w w.
Proof. intros x _. apply agree_refl. Qed.
Lemma grows_trans w w1 w2 : grows w w1 -> grows w1 w2 -> grows w w2.
Proof. intros G1 G2 x E. apply (agree_trans w w1); [exact (G1 x E)|]. apply G2. exact (agree_exists w w1 x E (G1 x E)). Qed.
Lemma grows_exists w w' x : grows w w' -> exists_in w x -> exists_in w' x.
Proof. intros G E. exact (agree_exists w w' x E (G x E)). Qed.

Lemma grows_type t w : grows w (new_at_end_type t w).
Proof. intros [r|m|f] E; cbn [agree new_at_end_type w_types w_maps w_facets]; [apply nth_error_app1, E|reflexivity|reflexivity]. Qed.
Lemma grows_map t w : grows w (new_at_end_map t w).
Proof. intros [r|m|f] E; cbn [agree new_at_end_map w_types w_maps w_facets]; [reflexivity|apply nth_error_app1, E|reflexivity]. Qed.
Lemma grows_facets t w : grows w (new_at_end_facets t w).
Proof. intros [r|m|f] E; cbn [agree new_at_end_facets w_types w_maps w_facets]; [reflexivity|reflexivity|apply nth_error_app1, E]. Qed.
Lemma last_one {A} (l : list A) a : nth_error (l ++ [a]) (List.length l) = Some a.
Proof. rewrite nth_error_app2 by lia. rewrite Nat.sub_diag. reflexivity. Qed.

(** The result of making something: [R] says which objects it is made of. *)
Definition fresh {A} (R : world -> A -> nat -> list addr -> Prop) (a : A) (w : world) (res : world * nat) : Prop :=
  exists L, R (fst res) a (snd res) L /\ NoDup L /\ (forall x, In x L -> ~ exists_in w x) /\ grows w (fst res).

Definition steady {A} (R : world -> A -> nat -> list addr -> Prop) : Prop :=
  (forall w a r L, R w a r L -> forall x, In x L -> exists_in w x) /\
  (forall w w' a r L, R w a r L -> (forall x, In x L -> agree w w' x) -> R w' a r L).

Lemma disjoint_app (w w1 : world) L1 L2 : NoDup L1 -> NoDup L2 -> (forall x, In x L1 -> exists_in w1 x) -> (forall x, In x L2 -> ~ exists_in w1 x) -> NoDup (L1 ++ L2).
Proof.
  intros N1 N2 E1 E2. induction N1 as [|x L1 Hx N1 IH]; [exact N2|]. cbn [app]. constructor.
  - intros H. apply in_app_or in H. destruct H as [H|H]; [contradiction|]. exact (E2 x H (E1 x (or_introl eq_refl))).
  - apply IH. intros y Hy. apply E1. right. exact Hy.
Qed.

Lemma make_list_cons {A} (f : A -> world -> world * nat) k a l w :
  make_list f ((k, a) :: l) w = let '(w, r) := f a w in let '(w, l) := make_list f l w in (w, (k, r) :: l).
Proof. reflexivity. Qed.
Lemma make_list_fresh {A} (R : world -> A -> nat -> list addr -> Prop) f ds : steady R -> Forall (fun e => forall w, fresh R (snd e) w (f (snd e) w)) ds ->
  forall w, let '(w', l) := make_list f ds w in
    exists L, own_list (R w') ds l L /\ NoDup L /\ (forall x, In x L -> ~ exists_in w x /\ exists_in w' x) /\ grows w w'.
Proof.
  intros [S1 S2] H. induction H as [|[k a] ds H _ IH]; intros w; [cbn [make_list]|rewrite make_list_cons].
  - exists []. split; [split; reflexivity|]. split; [constructor|]. split; [intros x []|apply grows_refl].
  - cbn [snd] in H. specialize (H w). destruct (f a w) as [w1 r]. cbn [fst snd] in H. destruct H as [L1 [H1 [N1 [F1 G1]]]]. cbn [fst snd] in *.
    specialize (IH w1). destruct (make_list f ds w1) as [w2 l]. destruct IH as [L2 [O2 [N2 [F2 G2]]]].
    pose proof (S1 w1 a r L1 H1) as E1. exists (L1 ++ L2). split; [|split; [|split]].
    + cbn [own_list]. exists r, l, L1, L2. split; [reflexivity|]. split; [reflexivity|]. split; [|exact O2]. apply (S2 w1); [exact H1|]. intros y Hy. apply G2, E1, Hy.
    + apply (disjoint_app w w1); [exact N1|exact N2|exact E1|]. intros y Hy. exact (proj1 (F2 y Hy)).
    + intros y Hy. apply in_app_or in Hy. destruct Hy as [Hy|Hy].
      * split; [exact (F1 y Hy)|]. apply (grows_exists w1); [exact G2|exact (E1 y Hy)].
      * destruct (F2 y Hy) as [F3 F4]. split; [|exact F4]. intros E. apply F3, (grows_exists w); assumption.
    + exact (grows_trans _ _ _ G1 G2).
Qed.

Definition omap_of {A} (R : world -> A -> nat -> list addr -> Prop) (w : world) := own_map (nth_error (w_maps w)) AMap (R w).
Definition ofacets_of {A} (R : world -> A -> nat -> list addr -> Prop) (w : world) := own_map (nth_error (w_facets w)) AFacets (R w).

Lemma omap_steady {A} (R : world -> A -> nat -> list addr -> Prop) : steady R -> steady (omap_of R).
Proof.
  intros [S1 S2]. split.
  - intros w a r L. apply own_map_in; [intros j Hj; apply nth_error_Some, Hj|]. apply Forall_forall. intros e _. apply S1.
  - intros w w' a r L. apply own_map_agree; [intros j Hj; exact Hj|]. apply Forall_forall. intros e _ i M. apply S2.
Qed.

Lemma make_map_fresh {A} (R : world -> A -> nat -> list addr -> Prop) f m : steady R -> NoDup (map fst (ents m)) ->
  Forall (fun e => forall w, fresh R (snd e) w (f (snd e) w)) (ents m) -> forall w, fresh (omap_of R) m w (make_map f m w).
Proof.
  intros S N H w. unfold make_map. pose proof (make_list_fresh R f (ents m) S H w) as M. destruct (make_list f (ents m) w) as [w1 l]. destruct M as [L [O [N1 [F G]]]].
  exists (AMap (List.length (w_maps w1)) :: L). cbn [fst snd]. split; [|split; [|split]].
  - exists (mkMap l (oord m)), L. cbn [new_at_end_map w_maps]. split; [apply last_one|]. split; [reflexivity|]. split; [exact N|]. split; [|reflexivity].
    refine (own_list_agree (R w1) _ (exists_in w1) _ _ _ _ O (fun x Hx => proj2 (F x Hx))). apply Forall_forall. intros e _ r M HR HE.
    apply (proj2 S w1); [exact HR|]. intros x Hx. apply grows_map, (HE x Hx).
  - constructor; [|exact N1]. intros Hi. destruct (F _ Hi) as [_ E]. cbn [exists_in] in E. lia.
  - intros x [<-|Hx]; [|exact (proj1 (F x Hx))]. intros E. apply (grows_exists w w1) in E; [|exact G]. cbn [exists_in] in E. lia.
  - exact (grows_trans _ _ _ G (grows_map _ w1)).
Qed.
Lemma make_facets_fresh {A} (R : world -> A -> nat -> list addr -> Prop) f m : steady R -> NoDup (map fst (ents m)) ->
  Forall (fun e => forall w, fresh (omap_of R) (snd e) w (make_map f (snd e) w)) (ents m) -> forall w, fresh (ofacets_of (omap_of R)) m w (make_facets f m w).
Proof.
  intros S N H w. unfold make_facets. pose proof (make_list_fresh (omap_of R) (make_map f) (ents m) (omap_steady R S) H w) as M.
  destruct (make_list (make_map f) (ents m) w) as [w1 l]. destruct M as [L [O [N1 [F G]]]].
  exists (AFacets (List.length (w_facets w1)) :: L). cbn [fst snd]. split; [|split; [|split]].
  - exists (mkMap l (oord m)), L. cbn [new_at_end_facets w_facets]. split; [apply last_one|]. split; [reflexivity|]. split; [exact N|]. split; [|reflexivity].
    refine (own_list_agree (omap_of R w1) _ (exists_in w1) _ _ _ _ O (fun x Hx => proj2 (F x Hx))). apply Forall_forall. intros e _ r M HR HE.
    apply (proj2 (omap_steady R S) w1); [exact HR|]. intros x Hx. apply grows_facets, (HE x Hx).
  - constructor; [|exact N1]. intros Hi. destruct (F _ Hi) as [_ E]. cbn [exists_in] in E. lia.
  - intros x [<-|Hx]; [|exact (proj1 (F x Hx))]. intros E. apply (grows_exists w w1) in E; [|exact G]. cbn [exists_in] in E. lia.
  - exact (grows_trans _ _ _ G (grows_facets _ w1)).
Qed.

Lemma own_steady : steady own.
Proof. split; [intros w a r L; apply own_exists|intros w w' a r L; apply own_agree]. Qed.

Lemma all_of_forall {A} (P : A -> Prop) l : all_of P l <-> Forall (fun e => P (snd e)) l.
Proof.
  induction l as [|[k a] l IH]; cbn [all_of]; [split; [constructor|intros _; exact I]|]. split.
  - intros [H1 H2]. constructor; [exact H1|apply IH, H2].
  - intros H. inversion H as [|? ? H1 H2]; subst. split; [exact H1|apply IH, H2].
Qed.
Lemma all_forall {A} (P Q : A -> Prop) l : Forall (fun e : string * A => P (snd e) -> Q (snd e)) l -> all_of P l -> Forall (fun e => Q (snd e)) l.
Proof.
  intros H. rewrite all_of_forall. induction H as [|e l H _ IH]; intros F; [constructor|]. inversion F as [|? ? F1 F2]; subst. constructor; [exact (H F1)|exact (IH F2)].
Qed.

Lemma make_fresh d : proper d -> forall w, fresh own d w (make d w).
Proof.
  induction d as [b|b x fs c s Hf Hs] using dtype_ind'; intros Pd w.
  - exists [AType (List.length (w_types w))]. cbn [make fst snd own]. split; [|split; [|split]].
    + cbn [new_at_end_type w_types]. split; [apply last_one|reflexivity].
    + repeat constructor. intros [].
    + intros x [<-|[]]. cbn [exists_in]. lia.
    + apply grows_type.
  - cbn [proper] in Pd. destruct Pd as [[Nf Pf] Ps]. cbn [make].
    assert (Ff : forall w, fresh (ofacets_of (omap_of own)) fs w (make_facets make fs w)).
    { apply make_facets_fresh; [exact own_steady|exact Nf|]. refine (all_forall (proper_map proper) (fun m => forall w, fresh (omap_of own) m w (make_map make m w)) (ents fs) _ Pf).
      eapply Forall_impl; [|exact Hf]. intros e He [Ne Pe]. apply make_map_fresh; [exact own_steady|exact Ne|]. exact (all_forall proper (fun d => forall w, fresh own d w (make d w)) _ He Pe). }
    assert (Fs : forall w, let '(w', h) := make_spec make s w in
      exists L, own_spec w' (own w') s h L /\ NoDup L /\ (forall x, In x L -> ~ exists_in w x /\ exists_in w' x) /\ grows w w').
    { intros w0. assert (Z : forall o, other_spec o = s -> exists L, own_spec w0 (own w0) s (HOther o) L /\ NoDup L /\
        (forall x, In x L -> ~ exists_in w0 x /\ exists_in w0 x) /\ grows w0 w0).
      { intros o Eo. exists []. split; [|split; [constructor|split; [intros y []|apply grows_refl]]].
        rewrite <- Eo. destruct o; cbn [other_spec own_spec]; split; reflexivity. }
      destruct s as [|u mn mx [t|]|fm|t mn mx|fm mn mx mu|fm mn mx mu|ps mn mx ad di dv|p mn mx]; cbn [make_spec]; try (apply Z; reflexivity).
      - cbn [spec_all] in Hs. specialize (Hs Ps w0). destruct (make t w0) as [w1 r]. destruct Hs as [L [O [N [F G]]]]. cbn [fst snd] in *. exists L.
        split; [split; [reflexivity|exact O]|]. split; [exact N|]. split; [|exact G]. intros y Hy. split; [exact (F y Hy)|exact (own_exists _ _ _ _ O y Hy)].
      - exists []. split; [split; reflexivity|]. split; [constructor|]. split; [intros y []|apply grows_refl].
      - cbn [spec_all] in Hs. destruct Ps as [Np Pp]. pose proof (make_map_fresh own make ps own_steady Np (all_forall proper (fun d => forall w, fresh own d w (make d w)) _ Hs Pp) w0) as M.
        destruct (make_map make ps w0) as [w1 r]. destruct M as [L [O [N [F G]]]]. cbn [fst snd] in *. exists L.
        split; [split; [reflexivity|exact O]|]. split; [exact N|]. split; [|exact G]. intros y Hy. split; [exact (F y Hy)|].
        exact (proj1 (omap_steady own own_steady) _ _ _ _ O y Hy). }
    specialize (Ff w). destruct (make_facets make fs w) as [w1 f]. destruct Ff as [L1 [O1 [N1 [F1 G1]]]]. cbn [fst snd] in *.
    specialize (Fs w1). destruct (make_spec make s w1) as [w2 h]. destruct Fs as [L2 [O2 [N2 [F2 G2]]]].
    assert (E1 : forall y, In y L1 -> exists_in w1 y) by (exact (own_facets_exists w1 fs f L1 O1)).
    exists (AType (List.length (w_types w2)) :: L1 ++ L2). cbn [fst snd]. split; [|split; [|split]].
    + cbn [own]. exists f, h, L1, L2. split; [cbn [new_at_end_type w_types]; apply last_one|]. split; [|split; [|reflexivity]].
      * apply (own_facets_agree w1); [exact O1|]. intros y Hy. apply (agree_trans w1 w2); [apply G2, E1, Hy|]. apply grows_type, (grows_exists w1 w2 y G2), E1, Hy.
      * apply (own_spec_agree w2); [|exact O2|intros y Hy; apply grows_type, (F2 y Hy)].
        destruct s as [|u mn mx [t|]|fm|t mn mx|fm mn mx mu|fm mn mx mu|ps mn mx ad di dv|p mn mx]; cbn [spec_all]; try exact I; [apply own_agree|].
        apply Forall_forall. intros e _. apply own_agree.
    + constructor.
      * intros Hi. apply in_app_or in Hi. assert (E : exists_in w2 (AType (List.length (w_types w2)))).
        { destruct Hi as [Hi|Hi]; [exact (grows_exists w1 w2 _ G2 (E1 _ Hi))|exact (proj2 (F2 _ Hi))]. } cbn [exists_in] in E. lia.
      * apply (disjoint_app w w1); [exact N1|exact N2|exact E1|]. intros y Hy. exact (proj1 (F2 y Hy)).
    + intros y [<-|Hy].
      * intros E. pose proof (grows_exists w w2 _ (grows_trans _ _ _ G1 G2) E) as E'. cbn [exists_in] in E'. lia.
      * apply in_app_or in Hy. destruct Hy as [Hy|Hy]; [exact (F1 y Hy)|]. intros E. apply (F2 y Hy), (grows_exists w w1 y G1 E).
    + exact (grows_trans _ _ _ (grows_trans _ _ _ G1 G2) (grows_type _ w2)).
Qed.

Lemma make_types_fresh ts : proper_map proper ts -> forall w, fresh own_types ts w (make_map make ts w).
Proof.
  intros [N P]. apply (make_map_fresh own); [exact own_steady|exact N|]. refine (all_forall proper (fun d => forall w, fresh own d w (make d w)) _ _ P). apply Forall_forall. intros e _. apply make_fresh.
Qed.
Lemma make_fm_fresh fs : proper_map (proper_map proper) fs -> forall w, fresh own_facets fs w (make_facets make fs w).
Proof.
  intros [N P]. apply (make_facets_fresh own); [exact own_steady|exact N|]. refine (all_forall (proper_map proper) (fun m => forall w, fresh (omap_of own) m w (make_map make m w)) _ _ P). apply Forall_forall. intros e _. apply make_types_fresh.
Qed.

(** ** One edit *)

(** [a] now holds [q], made of objects that were [p]'s or are new; other objects are as before. *)
Definition outcome (w : world) (L : list addr) (w' : world) (q : part) (a : addr) : Prop :=
  exists L2, own_part w' q a L2 /\ NoDup L2 /\ (forall x, In x L2 -> In x L \/ ~ exists_in w x) /\ (forall x, exists_in w x -> ~ In x L -> agree w w' x).

Lemma outcome_same w L w' q a : own_part w q a L -> NoDup L -> grows w w' -> outcome w L w' q a.
Proof.
  intros O N G. exists L. split; [apply (own_part_agree w); [exact O|]; intros x Hx; apply G, (own_part_exists w q a L O x Hx)|]. split; [exact N|].
  split; [intros x Hx; left; exact Hx|]. intros x E _. exact (G x E).
Qed.

Lemma put_type_agree r t w x : x <> AType r -> agree w (put_type r t w) x.
Proof. destruct x as [r'|m|f]; intros H; cbn [agree put_type w_types w_maps w_facets]; try reflexivity. apply set_nth_other. congruence. Qed.
Lemma put_map_agree r t w x : x <> AMap r -> agree w (put_map r t w) x.
Proof. destruct x as [r'|m|f]; intros H; cbn [agree put_map w_types w_maps w_facets]; try reflexivity. apply set_nth_other. congruence. Qed.
Lemma put_facets_agree r t w x : x <> AFacets r -> agree w (put_facets r t w) x.
Proof. destruct x as [r'|m|f]; intros H; cbn [agree put_facets w_types w_maps w_facets]; try reflexivity. apply set_nth_other. congruence. Qed.

Lemma nodup_split (a : addr) L1 L2 : NoDup (a :: L1 ++ L2) -> NoDup L1 /\ NoDup L2 /\ ~ In a L1 /\ ~ In a L2 /\ (forall x, In x L1 -> ~ In x L2).
Proof.
  intros N. inversion N as [|? ? N1 N2]; subst. assert (Z : NoDup L1 /\ NoDup L2 /\ (forall x, In x L1 -> ~ In x L2)).
  { clear N N1. induction L1 as [|y L1 IH]; [split; [constructor|split; [exact N2|intros x []]]|]. cbn [app] in N2. inversion N2 as [|? ? M1 M2]; subst.
    destruct (IH M2) as [Z1 [Z2 Z3]]. split; [constructor; [|exact Z1]; intros H; apply M1, in_or_app; left; exact H|]. split; [exact Z2|].
    intros x [<-|Hx]; [|exact (Z3 x Hx)]. intros H. apply M1, in_or_app. right. exact H. }
  destruct Z as [Z1 [Z2 Z3]]. split; [exact Z1|]. split; [exact Z2|]. split; [intros H; apply N1, in_or_app; left; exact H|]. split; [|exact Z3].
  intros H. apply N1, in_or_app. right. exact H.
Qed.
Lemma nodup_join (a : addr) L1 L2 : NoDup L1 -> NoDup L2 -> ~ In a L1 -> ~ In a L2 -> (forall x, In x L1 -> ~ In x L2) -> NoDup (a :: L1 ++ L2).
Proof.
  intros N1 N2 A1 A2 D. constructor.
  - intros H. apply in_app_or in H. destruct H as [H|H]; contradiction.
  - clear A1. induction N1 as [|x L1 Hx N1 IH]; [exact N2|]. cbn [app]. constructor.
    + intros H. apply in_app_or in H. destruct H as [H|H]; [contradiction|]. exact (D x (or_introl eq_refl) H).
    + apply IH. intros y Hy. apply D. right. exact Hy.
Qed.

Lemma outcome_type w w1 L r t b x f c h fs s L1 L2 : grows w w1 -> In (AType r) L -> nth_error (w_types w1) r = Some t ->
  own_facets w1 fs f L1 -> own_spec w1 (own w1) s h L2 -> NoDup L1 -> NoDup L2 -> ~ In (AType r) L1 -> ~ In (AType r) L2 -> (forall y, In y L1 -> ~ In y L2) ->
  (forall y, In y L1 \/ In y L2 -> In y L \/ ~ exists_in w y) -> exists_in w (AType r) ->
  outcome w L (put_type r (HExt b x f c h) w1) (PDef (TExt b x fs c s)) (AType r).
Proof.
  intros G Hr Ht Of Os N1 N2 A1 A2 D F E. exists (AType r :: L1 ++ L2).
  assert (K1 : forall y, In y L1 -> agree w1 (put_type r (HExt b x f c h) w1) y) by (intros y Hy; apply put_type_agree; intros ->; contradiction).
  assert (K2 : forall y, In y L2 -> agree w1 (put_type r (HExt b x f c h) w1) y) by (intros y Hy; apply put_type_agree; intros ->; contradiction).
  split; [|split; [apply nodup_join; assumption|split]].
  - cbn [own_part own]. exists f, h, L1, L2. split; [cbn [put_type w_types]; apply (set_nth_same _ t); exact Ht|]. split; [|split; [|reflexivity]].
    + exact (own_facets_agree w1 _ fs f L1 Of K1).
    + apply (own_spec_agree w1); [|exact Os|exact K2].
      destruct s as [|u mn mx [d|]|fm|ft mn mx|fm mn mx mu|fm mn mx mu|ps mn mx ad di dv|p mn mx]; cbn [spec_all]; try exact I; [apply own_agree|].
      apply Forall_forall. intros e _. apply own_agree.
  - intros y [<-|Hy]; [left; exact Hr|]. apply F, in_app_or, Hy.
  - intros y Ey Hy. apply (agree_trans w w1); [exact (G y Ey)|]. apply put_type_agree. intros ->. contradiction.
Qed.

(** The setters that take no type. *)
Lemma own_other w (s : spec dtype) o L : own_spec w (own w) s (HOther o) L <-> s = other_spec o /\ L = [].
Proof. destruct s as [|u mn mx [t|]|fm|ft mn mx|fm mn mx mu|fm mn mx mu|ps mn mx ad di dv|p mn mx]; reflexivity. Qed.
Lemma other_own op o : @other_spec dtype (own_apply op o) = own_apply op (other_spec o).
Proof. destruct o, op; reflexivity. Qed.
Lemma own_spec_apply w op (s : spec dtype) h L : own_spec w (own w) s h L ->
  own_spec w (own w) (own_apply op s) (hspec_apply op h) L \/ own_spec w (own w) (own_apply op s) (hspec_apply op h) [].
Proof.
  intros O. destruct h as [u' mn' mx' it|p' mn' mx' ad' di' dv'|o].
  - destruct s as [|u mn mx [t|]|fm|ft mn mx|fm mn mx mu|fm mn mx mu|ps mn mx ad di dv|p mn mx], it as [i|]; cbn [own_spec] in O; try contradiction.
    + destruct O as [E O]. injection E as <- <- <-. destruct op; cbn [own_apply hspec_apply own_spec]; solve [left; split; [reflexivity|exact O]|right; split; reflexivity].
    + destruct O as [E ->]. injection E as <- <- <-. left. destruct op; cbn [own_apply hspec_apply own_spec]; split; reflexivity.
  - destruct s as [|u mn mx [t|]|fm|ft mn mx|fm mn mx mu|fm mn mx mu|ps mn mx ad di dv|p mn mx]; cbn [own_spec] in O; try contradiction.
    destruct O as [E O]. injection E as <- <- <- <- <-. left. destruct op; cbn [own_apply hspec_apply own_spec]; split; try reflexivity; exact O.
  - apply own_other in O. destruct O as [-> ->]. left. cbn [hspec_apply]. apply own_other. rewrite other_own. split; reflexivity.
Qed.

Lemma setter_own w op d r L : takes_no_type op -> own w d r L -> NoDup L -> outcome w L (h_apply (HSet r op) w) (PDef (type_apply op d)) (AType r).
Proof.
  intros T O N. destruct d as [b|b x fs c s].
  - cbn [own] in O. destruct O as [O ->]. cbn [h_apply type_apply]. rewrite O. cbn [htype_apply]. apply outcome_same; [split; [exact O|reflexivity]|exact N|].
    intros y E. destruct y as [r'|m|f]; cbn [agree put_type w_types w_maps w_facets]; try reflexivity. destruct (Nat.eq_dec r r') as [<-|Hr].
    + rewrite (set_nth_same (HBase b) (HBase b) _ r O). symmetry. exact O.
    + apply set_nth_other, Hr.
  - cbn [own] in O. destruct O as (f & h & L1 & L2 & O1 & O2 & O3 & ->). cbn [h_apply]. rewrite O1. cbn [htype_apply]. rewrite (type_apply_own op b x fs c s T).
    destruct (nodup_split _ _ _ N) as [N1 [N2 [A1 [A2 D]]]].
    destruct (own_spec_apply w op s h L2 O3) as [O4|O4].
    + refine (outcome_type w w (AType r :: L1 ++ L2) r _ _ _ f _ _ fs _ L1 L2 (grows_refl w) (or_introl eq_refl) O1 O2 O4 N1 N2 A1 A2 D _ (nth_here _ _ _ O1)).
      intros y Hy. left. right. apply in_or_app. exact Hy.
    + refine (outcome_type w w (AType r :: L1 ++ L2) r _ _ _ f _ _ fs _ L1 [] (grows_refl w) (or_introl eq_refl) O1 O2 O4 N1 (NoDup_nil _) A1 _ _ _ (nth_here _ _ _ O1)).
      * intros [].
      * intros y Hy H. destruct H.
      * intros y [Hy|Hy]; [|contradiction]. left. right. apply in_or_app. left. exact Hy.
Qed.

(** The setters that take types: what they are given is new. *)
Lemma fresh_apart w (L M : list addr) : (forall x, In x L -> exists_in w x) -> (forall x, In x M -> ~ exists_in w x) -> forall x, In x L -> ~ In x M.
Proof. intros E F x H1 H2. exact (F x H2 (E x H1)). Qed.

Lemma items_own w d r L dt w1 i : own w d r L -> NoDup L -> fresh own dt w (w1, i) ->
  outcome w L (h_apply (HSetItems r (Some i)) w1) (PDef (type_apply (TSetItems (Some dt)) d)) (AType r).
Proof.
  intros O N (M & H & NM & FM & G). cbn [fst snd] in *. destruct d as [b|b x fs c s]; cbn [own] in O.
  - destruct O as [O ->]. cbn [h_apply type_apply]. rewrite (G (AType r) (nth_here _ _ _ O) : nth_error (w_types w1) r = _), O.
    apply outcome_same; [split; [exact O|reflexivity]|exact N|exact G].
  - pose proof O as O'. destruct O as (f & h & L1 & L2 & O1 & O2 & O3 & ->). pose proof (nth_here _ _ _ O1 : exists_in w (AType r)) as Er. cbn [h_apply].
    rewrite (G (AType r) Er : nth_error (w_types w1) r = _), O1.
    destruct h as [u mn mx it|p mn mx ad di dv|o].
    + destruct s as [|u' mn' mx' it'|fm|ft mn' mx'|fm mn' mx' mu|fm mn' mx' mu|ps mn' mx' ad di dv|p mn' mx']; cbn [own_spec] in O3; try contradiction.
      assert (E : (u', mn', mx') = (u, mn, mx)) by (destruct it', it; try contradiction; exact (proj1 O3)). injection E as -> -> ->.
      destruct (nodup_split _ _ _ N) as [N1 [N2 [A1 [A2 D]]]]. cbn [type_apply base_apply ext_apply facets_apply common_apply spec_apply].
      pose proof (own_facets_exists w fs f L1 O2) as E1.
      refine (outcome_type w w1 (AType r :: L1 ++ L2) r _ b x f c (HArray u mn mx (Some i)) fs (SArray u mn mx (Some dt)) L1 M G (or_introl eq_refl)
        (eq_trans (G (AType r) Er) O1) _ _ N1 NM A1 _ _ _ Er).
      * apply (own_facets_agree w); [exact O2|]. intros y Hy. apply G, E1, Hy.
      * split; [reflexivity|exact H].
      * intros Hi. exact (FM _ Hi Er).
      * exact (fresh_apart w L1 M E1 FM).
      * intros y [Hy|Hy]; [left; right; apply in_or_app; left; exact Hy|right; exact (FM y Hy)].
    + destruct s as [|u' mn' mx' [t|]|fm|ft mn' mx'|fm mn' mx' mu|fm mn' mx' mu|ps mn' mx' ad' di' dv'|p' mn' mx']; cbn [own_spec] in O3; try contradiction.
      cbn [type_apply base_apply ext_apply facets_apply common_apply spec_apply own_apply]. apply outcome_same; [exact O'|exact N|exact G].
    + apply own_other in O3. destruct O3 as [-> ->]. replace (type_apply _ _) with (TExt b x fs c (other_spec o)) by (destruct o; reflexivity).
      apply outcome_same; [exact O'|exact N|exact G].
Qed.

Lemma noitems_own w d r L : own w d r L -> NoDup L -> outcome w L (h_apply (HSetItems r None) w) (PDef (type_apply (TSetItems None) d)) (AType r).
Proof.
  intros O N. destruct d as [b|b x fs c s]; cbn [own] in O.
  - destruct O as [O ->]. cbn [h_apply type_apply]. rewrite O. apply outcome_same; [split; [exact O|reflexivity]|exact N|apply grows_refl].
  - pose proof O as O'. destruct O as (f & h & L1 & L2 & O1 & O2 & O3 & ->). pose proof (nth_here _ _ _ O1 : exists_in w (AType r)) as Er. cbn [h_apply]. rewrite O1.
    destruct h as [u mn mx it|p mn mx ad di dv|o].
    + destruct s as [|u' mn' mx' it'|fm|ft mn' mx'|fm mn' mx' mu|fm mn' mx' mu|ps mn' mx' ad di dv|p mn' mx']; cbn [own_spec] in O3; try contradiction.
      assert (E : (u', mn', mx') = (u, mn, mx)) by (destruct it', it; try contradiction; exact (proj1 O3)). injection E as -> -> ->.
      destruct (nodup_split _ _ _ N) as [N1 [N2 [A1 [A2 D]]]]. cbn [type_apply base_apply ext_apply facets_apply common_apply spec_apply].
      refine (outcome_type w w (AType r :: L1 ++ L2) r _ b x f c (HArray u mn mx None) fs (SArray u mn mx None) L1 [] (grows_refl w) (or_introl eq_refl)
        O1 O2 _ N1 (NoDup_nil _) A1 _ _ _ Er).
      * split; reflexivity.
      * intros [].
      * intros y _ [].
      * intros y [Hy|[]]. left. right. apply in_or_app. left. exact Hy.
    + destruct s as [|u' mn' mx' [t|]|fm|ft mn' mx'|fm mn' mx' mu|fm mn' mx' mu|ps mn' mx' ad' di' dv'|p' mn' mx']; cbn [own_spec] in O3; try contradiction.
      cbn [type_apply base_apply ext_apply facets_apply common_apply spec_apply own_apply]. apply outcome_same; [exact O'|exact N|apply grows_refl].
    + apply own_other in O3. destruct O3 as [-> ->]. replace (type_apply _ _) with (TExt b x fs c (other_spec o)) by (destruct o; reflexivity).
      apply outcome_same; [exact O'|exact N|apply grows_refl].
Qed.

Lemma blank_proper {A} (P : A -> Prop) : proper_map P blank.
Proof. split; [constructor|exact I]. Qed.

Lemma props_own w d r L ps w1 i op : own w d r L -> NoDup L -> fresh own_types ps w (w1, i) ->
  (forall mn mx ad di dv qs, spec_apply op (SObject qs mn mx ad di dv) = SObject ps mn mx ad di dv) ->
  (op = TSetProperties (Some ps) \/ op = TSetProperties None \/ op = TUnsetProperties) ->
  outcome w L (h_apply (HSetProperties r (Some i)) w1) (PDef (type_apply op d)) (AType r).
Proof.
  intros O N (M & H & NM & FM & G) Sp Op. cbn [fst snd] in *.
  assert (Z : forall b x fs c s, type_apply op (TExt b x fs c s) = TExt b x fs c (spec_apply op s)) by (intros; destruct Op as [->|[->| ->]]; reflexivity).
  destruct d as [b|b x fs c s]; cbn [own] in O.
  - destruct O as [O ->]. cbn [h_apply type_apply]. rewrite (G (AType r) (nth_here _ _ _ O) : nth_error (w_types w1) r = _), O.
    apply outcome_same; [split; [exact O|reflexivity]|exact N|exact G].
  - pose proof O as O'. destruct O as (f & h & L1 & L2 & O1 & O2 & O3 & ->). pose proof (nth_here _ _ _ O1 : exists_in w (AType r)) as Er. cbn [h_apply].
    rewrite (G (AType r) Er : nth_error (w_types w1) r = _), O1, Z.
    destruct h as [u mn mx it|p mn mx ad di dv|o].
    + destruct s as [|u' mn' mx' it'|fm|ft mn' mx'|fm mn' mx' mu|fm mn' mx' mu|qs mn' mx' ad di dv|p mn' mx']; cbn [own_spec] in O3; try contradiction.
      replace (spec_apply op _) with (SArray u' mn' mx' it') by (destruct Op as [->|[->| ->]]; reflexivity). apply outcome_same; [exact O'|exact N|exact G].
    + destruct s as [|u' mn' mx' [t|]|fm|ft mn' mx'|fm mn' mx' mu|fm mn' mx' mu|qs mn' mx' ad' di' dv'|p' mn' mx']; cbn [own_spec] in O3; try contradiction.
      destruct O3 as [E O3]. injection E as -> -> -> -> ->. destruct (nodup_split _ _ _ N) as [N1 [N2 [A1 [A2 D]]]]. rewrite Sp.
      pose proof (own_facets_exists w fs f L1 O2) as E1.
      refine (outcome_type w w1 (AType r :: L1 ++ L2) r _ b x f c (HObject i mn mx ad di dv) fs (SObject ps mn mx ad di dv) L1 M G (or_introl eq_refl)
        (eq_trans (G (AType r) Er) O1) _ _ N1 NM A1 _ _ _ Er).
      * apply (own_facets_agree w); [exact O2|]. intros y Hy. apply G, E1, Hy.
      * split; [reflexivity|exact H].
      * intros Hi. exact (FM _ Hi Er).
      * exact (fresh_apart w L1 M E1 FM).
      * intros y [Hy|Hy]; [left; right; apply in_or_app; left; exact Hy|right; exact (FM y Hy)].
    + apply own_other in O3. destruct O3 as [-> ->]. replace (spec_apply op _) with (@other_spec dtype o) by (destruct Op as [->|[->| ->]]; destruct o; reflexivity).
      apply outcome_same; [exact O'|exact N|exact G].
Qed.

Lemma facets_own w d r L ps w1 i op : own w d r L -> NoDup L -> fresh own_facets ps w (w1, i) ->
  (forall b x fs c s, type_apply op (TExt b x fs c s) = TExt b x ps c s) ->
  outcome w L (h_apply (HSetFacetDefinitions r (Some i)) w1) (PDef (type_apply op d)) (AType r).
Proof.
  intros O N (M & H & NM & FM & G) Z. cbn [fst snd] in *. destruct d as [b|b x fs c s]; cbn [own] in O.
  - destruct O as [O ->]. cbn [h_apply type_apply]. rewrite (G (AType r) (nth_here _ _ _ O) : nth_error (w_types w1) r = _), O.
    apply outcome_same; [split; [exact O|reflexivity]|exact N|exact G].
  - destruct O as (f & h & L1 & L2 & O1 & O2 & O3 & ->). pose proof (nth_here _ _ _ O1 : exists_in w (AType r)) as Er. cbn [h_apply].
    rewrite (G (AType r) Er : nth_error (w_types w1) r = _), O1, Z. destruct (nodup_split _ _ _ N) as [N1 [N2 [A1 [A2 D]]]].
    assert (E2 : forall y, In y L2 -> exists_in w y).
    { assert (O : own w (TExt b x fs c s) r (AType r :: L1 ++ L2)) by (exists f, h, L1, L2; repeat (split; [assumption|]); reflexivity).
      intros y Hy. apply (own_exists w _ r _ O). right. apply in_or_app. right. exact Hy. }
    refine (outcome_type w w1 (AType r :: L1 ++ L2) r _ b x i c h ps s M L2 G (or_introl eq_refl) (eq_trans (G (AType r) Er) O1) H _ NM N2 _ A2 _ _ Er).
    + apply (own_spec_agree w); [|exact O3|intros y Hy; apply G, E2, Hy].
      destruct s as [|u mn mx [t|]|fm|ft mn mx|fm mn mx mu|fm mn mx mu|qs mn mx ad di dv|p mn mx]; cbn [spec_all]; try exact I; [apply own_agree|].
      apply Forall_forall. intros e _. apply own_agree.
    + intros Hi. exact (FM _ Hi Er).
    + intros y H1 H2. exact (FM y H1 (E2 y H2)).
    + intros y [Hy|Hy]; [right; exact (FM y Hy)|left; right; apply in_or_app; right; exact Hy].
Qed.

(** nil and the Unset methods: the new map of Heap.v is one that is made. *)
Lemma no_props_own w d r L op : own w d r L -> NoDup L -> (op = TSetProperties None \/ op = TUnsetProperties) ->
  outcome w L (h_apply (HSetProperties r None) w) (PDef (type_apply op d)) (AType r).
Proof.
  intros O N Op. assert (Z : forall b x fs c s, type_apply op (TExt b x fs c s) = TExt b x fs c (spec_apply op s)) by (intros; destruct Op as [->| ->]; reflexivity).
  destruct d as [b|b x fs c s].
  - pose proof O as O'. cbn [own] in O. destruct O as [O _]. cbn [h_apply type_apply]. rewrite O. apply outcome_same; [exact O'|exact N|apply grows_refl].
  - pose proof O as O'. cbn [own] in O. destruct O as (f & h & L1 & L2 & O1 & O2 & O3 & E). destruct h as [u mn mx it|p mn mx ad di dv|o].
    + cbn [h_apply]. rewrite O1, Z. destruct s as [|u' mn' mx' it'|fm|ft mn' mx'|fm mn' mx' mu|fm mn' mx' mu|qs mn' mx' ad di dv|p mn' mx']; cbn [own_spec] in O3; try contradiction.
      replace (spec_apply op _) with (SArray u' mn' mx' it') by (destruct Op as [->| ->]; reflexivity). apply outcome_same; [exact O'|exact N|apply grows_refl].
    + replace (h_apply (HSetProperties r None) w) with (h_apply (HSetProperties r (Some (List.length (w_maps w)))) (new_at_end_map blank w)).
      2:{ cbn [h_apply new_at_end_map w_types]. rewrite O1. reflexivity. }
      apply (props_own w (TExt b x fs c s) r L blank _ _ op O' N (make_types_fresh blank (blank_proper proper) w)).
      * intros. destruct Op as [->| ->]; reflexivity.
      * destruct Op as [->| ->]; [right; left; reflexivity|right; right; reflexivity].
    + cbn [h_apply]. rewrite O1, Z. apply own_other in O3. destruct O3 as [-> ->].
      replace (spec_apply op _) with (@other_spec dtype o) by (destruct Op as [->| ->]; destruct o; reflexivity). apply outcome_same; [exact O'|exact N|apply grows_refl].
Qed.
Lemma no_facets_own w d r L op : own w d r L -> NoDup L -> (op = TSetFacetDefinitions None \/ op = TUnsetFacetDefinitions) ->
  outcome w L (h_apply (HSetFacetDefinitions r None) w) (PDef (type_apply op d)) (AType r).
Proof.
  intros O N Op. destruct d as [b|b x fs c s].
  - pose proof O as O'. cbn [own] in O. destruct O as [O _]. cbn [h_apply type_apply]. rewrite O. apply outcome_same; [exact O'|exact N|apply grows_refl].
  - pose proof O as O'. cbn [own] in O. destruct O as (f & h & L1 & L2 & O1 & O2 & O3 & E).
    replace (h_apply (HSetFacetDefinitions r None) w) with (h_apply (HSetFacetDefinitions r (Some (List.length (w_facets w)))) (new_at_end_facets blank w)).
    2:{ cbn [h_apply new_at_end_facets w_types]. rewrite O1. reflexivity. }
    apply (facets_own w (TExt b x fs c s) r L blank _ _ op O' N (make_fm_fresh blank (blank_proper _) w)).
    intros b0 x0 fs0 c0 s0. destruct Op as [->| ->]; cbn [type_apply base_apply ext_apply facets_apply common_apply spec_apply or_blank]; destruct s0; reflexivity.
Qed.

Lemma set_own w d r L op : own w d r L -> NoDup L -> proper_op (DSet op) -> outcome w L (h_setter op r w) (PDef (type_apply op d)) (AType r).
Proof.
  intros O N P. destruct op; try (simple refine (setter_own w _ d r L _ O N); exact I); cbn [h_setter].
  - destruct m as [m|].
    + cbn [proper_op] in P. pose proof (make_fm_fresh m P w) as M. destruct (make_facets make m w) as [w1 f]. apply (facets_own w d r L m w1 f _ O N M).
      intros b x fs c s. cbn [type_apply base_apply ext_apply facets_apply common_apply spec_apply or_blank]. destruct s; reflexivity.
    + apply no_facets_own; [exact O|exact N|left; reflexivity].
  - apply no_facets_own; [exact O|exact N|right; reflexivity].
  - destruct t as [t|].
    + cbn [proper_op] in P. pose proof (make_fresh t P w) as M. destruct (make t w) as [w1 i]. exact (items_own w d r L t w1 i O N M).
    + apply noitems_own; assumption.
  - destruct m as [m|].
    + cbn [proper_op] in P. pose proof (make_types_fresh m P w) as M. destruct (make_map make m w) as [w1 i]. apply (props_own w d r L m w1 i _ O N M); [reflexivity|left; reflexivity].
    + apply no_props_own; [exact O|exact N|left; reflexivity].
  - apply no_props_own; [exact O|exact N|right; reflexivity].
Qed.

(** A method of a map. *)
Definition op_like {A} (R : A -> nat -> list addr -> Prop) (o : op string A) (o' : op string nat) (La : list addr) : Prop :=
  match o, o' with
  | OPut k v, OPut k' r | OPutIfNotNil k (Some v), OPutIfNotNil k' (Some r) | OReplaceOrPut k v, OReplaceOrPut k' r | OReplaceIfExists k v, OReplaceIfExists k' r =>
    k = k' /\ R v r La
  | OPutIfNotNil k None, OPutIfNotNil k' None | ODelete k, ODelete k' | OGet k, OGet k' | OGetOpt k, OGetOpt k' | OHas k, OHas k' | OIndexOf k, OIndexOf k' =>
    k = k' /\ La = []
  | OSerializeOrdered b, OSerializeOrdered b' => b = b' /\ La = []
  | OLen, OLen | OForEach, OForEach => La = []
  | OAt j, OAt j' => j = j' /\ La = []
  | _, _ => False
  end.

Lemma make_op_fresh {A} (R : world -> A -> nat -> list addr -> Prop) f (P : A -> Prop) o : (forall a, P a -> forall w, fresh R a w (f a w)) -> given P o -> forall w,
  let '(w', o') := make_op f o w in exists La, op_like (R w') o o' La /\ NoDup La /\ (forall x, In x La -> ~ exists_in w x) /\ grows w w'.
Proof.
  intros H G w. assert (Z : forall o', op_like (R w) o o' [] -> exists La, op_like (R w) o o' La /\ NoDup La /\ (forall x, In x La -> ~ exists_in w x) /\ grows w w).
  { intros o' Ho. exists []. split; [exact Ho|]. split; [constructor|]. split; [intros x []|apply grows_refl]. }
  assert (Y : forall a, P a -> let '(w', r) := f a w in exists La, R w' a r La /\ NoDup La /\ (forall x, In x La -> ~ exists_in w x) /\ grows w w').
  { intros a Pa. specialize (H a Pa w). destruct (f a w) as [w' r]. exact H. }
  destruct o as [k v|k [v|]|k v|k v|k|b|k|k|k| |j|k|]; cbn [make_op given] in *; try (apply Z; cbn [op_like]; repeat split; reflexivity);
    specialize (Y v G); destruct (f v w) as [w' r]; destruct Y as [La [Y1 Y2]]; exists La; (split; [split; [reflexivity|exact Y1]|exact Y2]).
Qed.

(** The list after a method. *)
Definition after {V} (l : list (string * V)) (o : op string V) : list (string * V) := match sstep String.eqb l o with Some (l', _) => l' | None => l end.

Lemma own_list_app {A} (R : A -> nat -> list addr -> Prop) ds ds' : forall l l' L L', own_list R ds l L -> own_list R ds' l' L' -> own_list R (ds ++ ds') (l ++ l') (L ++ L').
Proof.
  induction ds as [|[k a] ds IH]; intros l l' L L' H H'; cbn [own_list] in H.
  - destruct H as [-> ->]. exact H'.
  - destruct H as [r [l1 [L1 [L2 [-> [-> [H1 H2]]]]]]]. cbn [app own_list]. exists r, (l1 ++ l'), L1, (L2 ++ L'). split; [reflexivity|]. split; [apply eq_sym, app_assoc|].
    split; [exact H1|]. apply IH; assumption.
Qed.

(** Some of the objects are left out. *)
Definition fewer (L L' : list addr) : Prop := (forall x, In x L' -> In x L) /\ (NoDup L -> NoDup L').

Lemma nodup_app (L1 L2 : list addr) : NoDup (L1 ++ L2) <-> NoDup L1 /\ NoDup L2 /\ (forall x, In x L1 -> ~ In x L2).
Proof.
  split.
  - induction L1 as [|y L1 IH]; intros N2; [split; [constructor|split; [exact N2|intros x []]]|]. cbn [app] in N2. inversion N2 as [|? ? M1 M2]; subst.
    destruct (IH M2) as [Z1 [Z2 Z3]]. split; [constructor; [|exact Z1]; intros H; apply M1, in_or_app; left; exact H|]. split; [exact Z2|].
    intros x [<-|Hx]; [|exact (Z3 x Hx)]. intros H. apply M1, in_or_app. right. exact H.
  - intros [N1 [N2 D]]. induction N1 as [|x L1 Hx N1 IH]; [exact N2|]. cbn [app]. constructor.
    + intros H. apply in_app_or in H. destruct H as [H|H]; [contradiction|]. exact (D x (or_introl eq_refl) H).
    + apply IH. intros y Hy. apply D. right. exact Hy.
Qed.

Lemma own_delete {A} (R : A -> nat -> list addr -> Prop) k ds : forall l L, own_list R ds l L ->
  exists L', own_list R (sdelete String.eqb k ds) (sdelete String.eqb k l) L' /\ fewer L L'.
Proof.
  induction ds as [|[k' a] ds IH]; intros l L H; cbn [own_list] in H.
  - destruct H as [-> ->]. exists []. split; [split; reflexivity|]. split; [intros x Hx; exact Hx|intros N; exact N].
  - destruct H as [r [l1 [L1 [L2 [-> [-> [H1 H2]]]]]]]. destruct (IH l1 L2 H2) as [L' [O [F1 F2]]]. unfold sdelete, other. cbn [filter fst].
    destruct (String.eqb k' k); cbn [negb].
    + exists L'. split; [exact O|]. split; [intros x Hx; apply in_or_app; right; exact (F1 x Hx)|]. intros N. apply nodup_app in N. apply F2, N.
    + exists (L1 ++ L'). split.
      * cbn [own_list]. exists r, (sdelete String.eqb k l1), L1, L'. split; [reflexivity|]. split; [reflexivity|]. split; [exact H1|exact O].
      * split; [intros x Hx; apply in_or_app; apply in_app_or in Hx; destruct Hx as [Hx|Hx]; [left; exact Hx|right; exact (F1 x Hx)]|].
        intros N. apply nodup_app in N. destruct N as [N1 [N2 D]]. apply nodup_app. split; [exact N1|]. split; [exact (F2 N2)|]. intros x Hx H. exact (D x Hx (F1 x H)).
Qed.

Lemma own_replace {A} (R : A -> nat -> list addr -> Prop) k a r La ds : R a r La -> NoDup (map fst ds) -> forall l L, own_list R ds l L ->
  exists L', own_list R (sreplace String.eqb k a ds) (sreplace String.eqb k r l) L' /\ fewer (La ++ L) L'.
Proof.
  intros Ha. induction ds as [|[k' b] ds IH]; intros N l L H.
  - cbn [own_list] in H. destruct H as [-> ->]. exists []. split; [split; reflexivity|]. split; [intros x []|intros _; constructor].
  - pose proof H as H'. cbn [own_list] in H. destruct H as [r0 [l1 [L1 [L2 [-> [-> [H1 H2]]]]]]]. cbn [map fst] in N. inversion N as [|? ? N1 N2]; subst. rewrite !sreplace_cons.
    destruct (String.eqb_spec k' k) as [->|Hk].
    + exists (La ++ L2). rewrite (sreplace_absent k a ds N1), (sreplace_absent k r l1).
      2:{ rewrite (own_list_keys R ds l1 L2 H2). exact N1. }
      split; [exists r, l1, La, L2; repeat (split; [reflexivity||assumption|]); exact H2|]. split.
      * intros x Hx. apply in_app_or in Hx. apply in_or_app. destruct Hx as [Hx|Hx]; [left; exact Hx|right; apply in_or_app; right; exact Hx].
      * intros M. apply nodup_app in M. destruct M as [M1 [M2 D]]. apply nodup_app in M2. destruct M2 as [M2 [M3 _]]. apply nodup_app. split; [exact M1|]. split; [exact M3|].
        intros x Hx H. apply (D x Hx), in_or_app. right. exact H.
    + destruct (IH N2 l1 L2 H2) as [L' [O [F1 F2]]]. exists (L1 ++ L').
      split; [exists r0, (sreplace String.eqb k r l1), L1, L'; repeat (split; [reflexivity||assumption|]); exact O|]. split.
      * intros x Hx. apply in_app_or in Hx. apply in_or_app. destruct Hx as [Hx|Hx]; [right; apply in_or_app; left; exact Hx|].
        apply F1, in_app_or in Hx. destruct Hx as [Hx|Hx]; [left; exact Hx|right; apply in_or_app; right; exact Hx].
      * intros M. apply nodup_app in M. destruct M as [M1 [M2 D]]. apply nodup_app in M2. destruct M2 as [M2 [M3 D2]]. apply nodup_app. split; [exact M2|]. split.
        { apply F2, nodup_app. split; [exact M1|]. split; [exact M3|]. intros x Hx H. apply (D x Hx), in_or_app. right. exact H. }
        intros x Hx H. apply F1, in_app_or in H. destruct H as [H|H]; [apply (D x H), in_or_app; left; exact Hx|exact (D2 x Hx H)].
Qed.

Lemma shas_keys {A B} k (l : list (string * A)) (l' : list (string * B)) : map fst l = map fst l' -> shas String.eqb k l = shas String.eqb k l'.
Proof.
  revert l'. induction l as [|[k1 a] l IH]; intros [|[k2 b] l'] E; try discriminate; [reflexivity|]. cbn [map fst] in E. injection E as -> E.
  unfold shas in *. cbn [existsb fst]. rewrite (IH l' E). reflexivity.
Qed.

Lemma sdelete_cons {V} k k' (v : V) l : sdelete String.eqb k ((k', v) :: l) = if String.eqb k' k then sdelete String.eqb k l else (k', v) :: sdelete String.eqb k l.
Proof. unfold sdelete, other. cbn [filter fst]. destruct (String.eqb k' k); reflexivity. Qed.
Lemma delete_keys {V} k (l : list (string * V)) : NoDup (map fst l) -> NoDup (map fst (sdelete String.eqb k l)) /\ ~ In k (map fst (sdelete String.eqb k l)).
Proof.
  induction l as [|[k' v] l IH]; intros N; [split; [constructor|intros []]|]. cbn [map fst] in N. inversion N as [|? ? N1 N2]; subst. destruct (IH N2) as [I1 I2].
  rewrite sdelete_cons. destruct (String.eqb_spec k' k) as [->|Hk]; [split; assumption|]. cbn [map fst]. split.
  - constructor; [|exact I1]. intros H. apply N1. apply in_map_iff in H. destruct H as [e [<- He]]. apply in_map, (proj1 (filter_In _ _ _) He).
  - intros [H|H]; [exact (Hk H)|exact (I2 H)].
Qed.
Lemma put_keys {V} k (v : V) l : NoDup (map fst l) -> NoDup (map fst (sput String.eqb k v l)).
Proof.
  intros N. destruct (delete_keys k l N) as [N1 N2]. unfold sput. rewrite map_app. cbn [map fst]. clear N. induction (map fst (sdelete String.eqb k l)) as [|x t IH].
  - repeat constructor. intros [].
  - cbn [app]. inversion N1 as [|? ? M1 M2]; subst. constructor.
    + intros H. apply in_app_or in H. destruct H as [H|[H|[]]]; [contradiction|]. apply N2. left. symmetry. exact H.
    + apply IH; [exact M2|]. intros H. apply N2. right. exact H.
Qed.

Lemma own_put {A} (R : A -> nat -> list addr -> Prop) k a r La ds : R a r La -> forall l L, own_list R ds l L ->
  exists L', own_list R (sput String.eqb k a ds) (sput String.eqb k r l) L' /\ fewer (La ++ L) L'.
Proof.
  intros Ha l L H. destruct (own_delete R k ds l L H) as [L' [O [F1 F2]]]. exists (L' ++ La). split.
  - unfold sput. apply own_list_app; [exact O|]. cbn [own_list]. exists r, [], La, []. split; [reflexivity|]. split; [symmetry; apply app_nil_r|]. split; [exact Ha|split; reflexivity].
  - split.
    + intros x Hx. apply in_app_or in Hx. apply in_or_app. destruct Hx as [Hx|Hx]; [right; exact (F1 x Hx)|left; exact Hx].
    + intros N. apply nodup_app in N. destruct N as [N1 [N2 D]]. apply nodup_app. split; [exact (F2 N2)|]. split; [exact N1|]. intros x Hx Hy. exact (D x Hy (F1 x Hx)).
Qed.

Lemma fewer_right La L : fewer (La ++ L) L.
Proof. split; [intros x Hx; apply in_or_app; right; exact Hx|]. intros N. apply nodup_app in N. apply N. Qed.

Lemma own_after {A} (R : A -> nat -> list addr -> Prop) o o' La ds l L : own_list R ds l L -> NoDup (map fst ds) -> op_like R o o' La ->
  exists L', own_list R (after ds o) (after l o') L' /\ NoDup (map fst (after ds o)) /\ fewer (La ++ L) L'.
Proof.
  intros O N H. assert (Z : exists L', own_list R ds l L' /\ NoDup (map fst ds) /\ fewer (La ++ L) L') by (exists L; split; [exact O|split; [exact N|apply fewer_right]]).
  assert (P : forall k v r, R v r La -> exists L', own_list R (sput String.eqb k v ds) (sput String.eqb k r l) L' /\ NoDup (map fst (sput String.eqb k v ds)) /\ fewer (La ++ L) L').
  { intros k v r Hv. destruct (own_put R k v r La ds Hv l L O) as [L' [O' F]]. exists L'. split; [exact O'|]. split; [apply put_keys, N|exact F]. }
  assert (Q : forall k v r, R v r La -> exists L', own_list R (sreplace String.eqb k v ds) (sreplace String.eqb k r l) L' /\ NoDup (map fst (sreplace String.eqb k v ds)) /\ fewer (La ++ L) L').
  { intros k v r Hv. destruct (own_replace R k v r La ds Hv N l L O) as [L' [O' F]]. exists L'. split; [exact O'|]. split; [rewrite sreplace_keys; exact N|exact F]. }
  unfold after. destruct o as [k v|k [v|]|k v|k v|k|b|k|k|k| |j|k|], o' as [k' r|k' [r|]|k' r|k' r|k'|b'|k'|k'|k'| |j'|k'|]; cbn [op_like] in H; try contradiction; cbn [sstep];
    try (destruct H as [<- H]; first [exact (P _ _ _ H)|exact (Q _ _ _ H)]); try exact Z.
  - destruct H as [<- H]. rewrite (shas_keys k l ds (own_list_keys R ds l L O)). destruct (shas String.eqb k ds); [exact (Q _ _ _ H)|exact (P _ _ _ H)].
  - destruct H as [<- ->]. destruct (own_delete R k ds l L O) as [L' [O' F]]. exists L'. split; [exact O'|]. split; [apply delete_keys, N|exact F].
  - destruct (sat j ds), (sat j' l); exact Z.
Qed.

Lemma map_edit_after {V} (o : op string V) m : map_edit String.eqb o m = mkMap (after (ents m) o) (match o with OSerializeOrdered b => b | _ => oord m end).
Proof. reflexivity. Qed.

Lemma types_edit_own w m i L o : own_types w m i L -> NoDup L -> given proper o -> outcome w L (h_edit (DTypes o) (AMap i) w) (PTypes (map_edit String.eqb o m)) (AMap i).
Proof.
  intros (mm & L' & O1 & O2 & O3 & O4 & ->) N P. cbn [h_edit]. pose proof (make_op_fresh own make proper o make_fresh P w) as M. destruct (make_op make o w) as [w1 o'].
  destruct M as [La [Ho [NA [FA G]]]]. pose proof (nth_here _ _ _ O1 : exists_in w (AMap i)) as Ei. cbn [h_apply].
  rewrite (G (AMap i) Ei : nth_error (w_maps w1) i = _), O1. inversion N as [|? ? Ni NL]; subst.
  assert (EL : forall x, In x L' -> exists_in w x).
  { refine (own_list_in (own w) (exists_in w) (ents m) _ (ents mm) L' O4). apply Forall_forall. intros e _. apply own_exists. }
  assert (O5 : own_list (own w1) (ents m) (ents mm) L').
  { refine (own_list_agree (own w) (own w1) (agree w w1) (ents m) _ (ents mm) L' O4 (fun x Hx => G x (EL x Hx))). apply Forall_forall. intros e _. apply own_agree. }
  destruct (own_after (own w1) o o' La (ents m) (ents mm) L' O5 O3 Ho) as [L2 [O6 [N6 [F1 F2]]]].
  assert (NAL : NoDup (La ++ L')) by (apply nodup_app; split; [exact NA|]; split; [exact NL|]; intros x Hx Hy; exact (FA x Hx (EL x Hy))).
  assert (Ni2 : ~ In (AMap i) L2).
  { intros H. apply F1, in_app_or in H. destruct H as [H|H]; [exact (FA _ H Ei)|exact (Ni H)]. }
  exists (AMap i :: L2). split; [|split; [|split]].
  - cbn [own_part]. exists (map_edit String.eqb o' mm), L2. split; [cbn [put_map w_maps]; apply (set_nth_same _ mm); rewrite (G (AMap i) Ei : nth_error (w_maps w1) i = _); exact O1|].
    split; [|split; [exact N6|split; [|reflexivity]]].
    + rewrite !map_edit_after. cbn [oord]. destruct o as [k v|k [v|]|k v|k v|k|b|k|k|k| |j|k|], o' as [k' r|k' [r|]|k' r|k' r|k'|b'|k'|k'|k'| |j'|k'|];
        cbn [op_like] in Ho; try contradiction; try exact O2. exact (eq_sym (proj1 Ho)).
    + rewrite !map_edit_after. cbn [ents]. refine (own_list_agree (own w1) _ (fun x => x <> AMap i) _ _ _ L2 O6 _).
      * apply Forall_forall. intros e _ r K HK HA. apply (own_agree w1); [exact HK|]. intros x Hx. apply put_map_agree, (HA x Hx).
      * intros x Hx ->. contradiction.
  - constructor; [exact Ni2|exact (F2 NAL)].
  - intros x [<-|Hx]; [left; left; reflexivity|]. apply F1, in_app_or in Hx. destruct Hx as [Hx|Hx]; [right; exact (FA x Hx)|left; right; exact Hx].
  - intros x Ex Hx. apply (agree_trans w w1); [exact (G x Ex)|]. apply put_map_agree. intros ->. apply Hx. left. reflexivity.
Qed.

Lemma facets_edit_own w m i L o : own_facets w m i L -> NoDup L -> given (proper_map proper) o ->
  outcome w L (h_edit (DFacets o) (AFacets i) w) (PFacets (map_edit String.eqb o m)) (AFacets i).
Proof.
  intros (mm & L' & O1 & O2 & O3 & O4 & ->) N P. cbn [h_edit]. pose proof (make_op_fresh own_types (make_map make) (proper_map proper) o make_types_fresh P w) as M.
  destruct (make_op (make_map make) o w) as [w1 o']. destruct M as [La [Ho [NA [FA G]]]]. pose proof (nth_here _ _ _ O1 : exists_in w (AFacets i)) as Ei. cbn [h_apply].
  rewrite (G (AFacets i) Ei : nth_error (w_facets w1) i = _), O1. inversion N as [|? ? Ni NL]; subst.
  assert (EL : forall x, In x L' -> exists_in w x).
  { refine (own_list_in (own_types w) (exists_in w) (ents m) _ (ents mm) L' O4). apply Forall_forall. intros e _. apply own_types_exists. }
  assert (O5 : own_list (own_types w1) (ents m) (ents mm) L').
  { refine (own_list_agree (own_types w) (own_types w1) (agree w w1) (ents m) _ (ents mm) L' O4 (fun x Hx => G x (EL x Hx))). apply Forall_forall. intros e _. apply own_types_agree. }
  destruct (own_after (own_types w1) o o' La (ents m) (ents mm) L' O5 O3 Ho) as [L2 [O6 [N6 [F1 F2]]]].
  assert (NAL : NoDup (La ++ L')) by (apply nodup_app; split; [exact NA|]; split; [exact NL|]; intros x Hx Hy; exact (FA x Hx (EL x Hy))).
  assert (Ni2 : ~ In (AFacets i) L2).
  { intros H. apply F1, in_app_or in H. destruct H as [H|H]; [exact (FA _ H Ei)|exact (Ni H)]. }
  exists (AFacets i :: L2). split; [|split; [|split]].
  - cbn [own_part]. exists (map_edit String.eqb o' mm), L2.
    split; [cbn [put_facets w_facets]; apply (set_nth_same _ mm); rewrite (G (AFacets i) Ei : nth_error (w_facets w1) i = _); exact O1|].
    split; [|split; [exact N6|split; [|reflexivity]]].
    + rewrite !map_edit_after. cbn [oord]. destruct o as [k v|k [v|]|k v|k v|k|b|k|k|k| |j|k|], o' as [k' r|k' [r|]|k' r|k' r|k'|b'|k'|k'|k'| |j'|k'|];
        cbn [op_like] in Ho; try contradiction; try exact O2. exact (eq_sym (proj1 Ho)).
    + rewrite !map_edit_after. cbn [ents]. refine (own_list_agree (own_types w1) _ (fun x => x <> AFacets i) _ _ _ L2 O6 _).
      * apply Forall_forall. intros e _ r K HK HA. apply (own_types_agree w1); [exact HK|]. intros x Hx. apply put_facets_agree, (HA x Hx).
      * intros x Hx ->. contradiction.
  - constructor; [exact Ni2|exact (F2 NAL)].
  - intros x [<-|Hx]; [left; left; reflexivity|]. apply F1, in_app_or in Hx. destruct Hx as [Hx|Hx]; [right; exact (FA x Hx)|left; right; exact Hx].
  - intros x Ex Hx. apply (agree_trans w w1); [exact (G x Ex)|]. apply put_facets_agree. intros ->. apply Hx. left. reflexivity.
Qed.

Lemma edit_own w q a L e : own_part w q a L -> NoDup L -> proper_op e -> outcome w L (h_edit e a w) (edit_part e q) a.
Proof.
  intros O N P. destruct e as [op|o|o], q as [d|m|m], a as [r|i|f]; cbn [own_part] in O; try contradiction;
    try (cbn [h_edit edit_part]; apply outcome_same; [exact O|exact N|apply grows_refl]).
  - exact (set_own w d r L op O N P).
  - exact (types_edit_own w m i L o O N P).
  - exact (facets_edit_own w m f L o O N P).
Qed.

(** ** Several documents *)

(** What the maps of the documents are made of. *)
Fixpoint own_docs (w : world) (ds : list (amap string dtype)) (ms : list nat) (L : list addr) : Prop :=
  match ds, ms with
  | [], [] => L = []
  | d :: ds, m :: ms => exists L1 L2, L = L1 ++ L2 /\ own_types w d m L1 /\ own_docs w ds ms L2
  | _, _ => False
  end.

Lemma own_docs_agree w w' ds : forall ms L, own_docs w ds ms L -> (forall x, In x L -> agree w w' x) -> own_docs w' ds ms L.
Proof.
  induction ds as [|d ds IH]; intros [|m ms] L O A; cbn [own_docs] in *; try contradiction; [exact O|]. destruct O as [L1 [L2 [-> [O1 O2]]]]. exists L1, L2.
  split; [reflexivity|]. split; [apply (own_types_agree w); [exact O1|]|apply IH; [exact O2|]]; intros x Hx; apply A, in_or_app; [left|right]; exact Hx.
Qed.
Lemma own_docs_exists w ds : forall ms L, own_docs w ds ms L -> forall x, In x L -> exists_in w x.
Proof.
  induction ds as [|d ds IH]; intros [|m ms] L O y Hy; cbn [own_docs] in *; try contradiction; [subst; contradiction|]. destruct O as [L1 [L2 [-> [O1 O2]]]].
  apply in_app_or in Hy. destruct Hy as [Hy|Hy]; [exact (own_types_exists w d m L1 O1 y Hy)|exact (IH ms L2 O2 y Hy)].
Qed.
Lemma own_docs_app w ds ms L d m M : own_docs w ds ms L -> own_types w d m M -> own_docs w (ds ++ [d]) (ms ++ [m]) (L ++ M).
Proof.
  revert ms L. induction ds as [|d1 ds IH]; intros [|m1 ms] L O H; cbn [own_docs app] in *; try contradiction.
  - subst. exists M, []. split; [symmetry; apply app_nil_r|]. split; [exact H|reflexivity].
  - destruct O as [L1 [L2 [-> [O1 O2]]]]. exists L1, (L2 ++ M). split; [apply eq_sym, app_assoc|]. split; [exact O1|]. apply IH; assumption.
Qed.

(** One of the documents. *)
Lemma own_docs_nth w ds : forall i ms L, own_docs w ds ms L ->
  match nth_error ms i with
  | None => nth_error ds i = None
  | Some m => exists d L1 R0, nth_error ds i = Some d /\ own_types w d m L1 /\ Permutation L (L1 ++ R0) /\
      forall w' d2 m2 L2, own_types w' d2 m2 L2 -> (forall x, In x R0 -> agree w w' x) ->
        exists L3, own_docs w' (replace_nth i (fun _ => d2) ds) (replace_nth i (fun _ => m2) ms) L3 /\ Permutation L3 (L2 ++ R0)
  end.
Proof.
  induction ds as [|d ds IH]; intros i [|m ms] L O; cbn [own_docs] in O; try contradiction; [destruct i; reflexivity|]. destruct O as [L1 [L2 [-> [O1 O2]]]].
  destruct i as [|i]; cbn [nth_error].
  - exists d, L1, L2. split; [reflexivity|]. split; [exact O1|]. split; [reflexivity|]. intros w' d2 m2 M H A. exists (M ++ L2). split; [|reflexivity].
    cbn [replace_nth own_docs]. exists M, L2. split; [reflexivity|]. split; [exact H|]. exact (own_docs_agree w w' ds ms L2 O2 A).
  - specialize (IH i ms L2 O2). destruct (nth_error ms i) as [mi|]; [|exact IH]. destruct IH as [di [M1 [R0 [E [H1 [P C]]]]]]. exists di, M1, (L1 ++ R0).
    split; [exact E|]. split; [exact H1|]. split; [rewrite P, !app_assoc; apply Permutation_app_tail, Permutation_app_comm|].
    intros w' d2 m2 M H A. destruct (C w' d2 m2 M H) as [L3 [O3 P3]]. { intros x Hx. apply A, in_or_app. right. exact Hx. }
    exists (L1 ++ L3). split.
    + cbn [replace_nth own_docs]. exists L1, L3. split; [reflexivity|]. split; [|exact O3]. apply (own_types_agree w); [exact O1|]. intros x Hx. apply A, in_or_app. left. exact Hx.
    + rewrite P3, !app_assoc. apply Permutation_app_tail, Permutation_app_comm.
Qed.

Lemma replace_nth_none {A} (f : A -> A) l : forall i, nth_error l i = None -> replace_nth i f l = l.
Proof. induction l as [|a l IH]; intros [|i] H; try reflexivity; [discriminate|]. cbn [replace_nth]. f_equal. apply IH, H. Qed.
Lemma replace_nth_const {A} (f : A -> A) a l : forall i, nth_error l i = Some a -> replace_nth i f l = replace_nth i (fun _ => f a) l.
Proof.
  induction l as [|b l IH]; intros [|i] H; try discriminate; cbn [replace_nth]; [injection H as ->; reflexivity|]. f_equal. apply IH, H.
Qed.
Lemma replace_nth_here {A} (a : A) l : forall i, nth_error l i = Some a -> replace_nth i (fun _ => a) l = l.
Proof. induction l as [|b l IH]; intros [|i] H; try discriminate; cbn [replace_nth]; [injection H as ->; reflexivity|]. f_equal. apply IH, H. Qed.

Definition separate (ds : list (amap string dtype)) (s : world * list nat) : Prop := exists L, own_docs (fst s) ds (snd s) L /\ NoDup L.

Lemma nodup_perm (L L' : list addr) : Permutation L L' -> NoDup L -> NoDup L'.
Proof. intros P N. exact (Permutation_NoDup P N). Qed.

Lemma use_separate u ds s : proper_use u -> separate ds s -> separate (deep_value u ds) (deep_ref u s).
Proof.
  intros P [L [O N]]. destruct s as [w ms]. cbn [fst snd] in O. destruct u as [ts|i gs e|i ts]; cbn [deep_value deep_ref proper_use] in *.
  - pose proof (make_types_fresh ts P w) as M. destruct (make_map make ts w) as [w1 m]. destruct M as [M [H [NM [FM G]]]]. cbn [fst snd] in *.
    pose proof (own_docs_exists w ds ms L O) as E. exists (L ++ M). cbn [fst snd]. split.
    + apply own_docs_app; [|exact H]. apply (own_docs_agree w); [exact O|]. intros x Hx. apply G, E, Hx.
    + apply nodup_app. split; [exact N|]. split; [exact NM|]. intros x Hx Hy. exact (FM x Hy (E x Hx)).
  - pose proof (own_docs_nth w ds i ms L O) as H. destruct (nth_error ms i) as [m|] eqn:Em.
    2:{ rewrite (replace_nth_none _ ds i H). exists L. split; [exact O|exact N]. }
    destruct H as [d [L1 [R0 [Ed [Od [Pm C]]]]]]. rewrite (replace_nth_const _ d ds i Ed).
    pose proof (own_walk w gs (PTypes d) (AMap m) L1 Od) as W. destruct (h_walk w gs (AMap m)) as [a|].
    + destruct W as [q [M1 [R1 [Oq [P1 C1]]]]]. pose proof (own_docs_exists w ds ms L O) as E.
      assert (N1 : NoDup (M1 ++ R1 ++ R0)). { apply (nodup_perm L); [|exact N]. rewrite Pm, P1, <- app_assoc. reflexivity. }
      assert (E1 : forall x, In x (R1 ++ R0) -> exists_in w x).
      { intros x Hx. apply E. apply (Permutation_in x (Permutation_sym Pm)). apply in_app_or in Hx. apply in_or_app. destruct Hx as [Hx|Hx]; [left|right; exact Hx].
        apply (Permutation_in x (Permutation_sym P1)), in_or_app. right. exact Hx. }
      apply nodup_app in N1. destruct N1 as [N1 [N2 D]].
      destruct (edit_own w q a M1 e Oq N1 P) as [L2 [O2 [NL2 [F2 A2]]]].
      assert (A : forall x, In x (R1 ++ R0) -> agree w (h_edit e a w) x).
      { intros x Hx. apply A2; [exact (E1 x Hx)|]. intros H. exact (D x H Hx). }
      destruct (C1 (h_edit e a w) e L2 O2) as [L3 [O3 P3]]. { intros x Hx. apply A, in_or_app. left. exact Hx. }
      destruct (edit_at gs e (PTypes d)) as [d'|d'|d'] eqn:Ee; cbn [own_part] in O3; try contradiction.
      destruct (C (h_edit e a w) d' m L3 O3) as [L4 [O4 P4]]. { intros x Hx. apply A, in_or_app. right. exact Hx. }
      exists L4. cbn [fst snd]. rewrite (replace_nth_here m ms i Em) in O4. split; [exact O4|].
      apply (nodup_perm (L2 ++ R1 ++ R0)); [rewrite P4, P3, <- app_assoc; reflexivity|]. apply nodup_app. split; [exact NL2|]. split; [exact N2|].
      intros x Hx Hy. destruct (F2 x Hx) as [H|H]; [exact (D x H Hy)|exact (H (E1 x Hy))].
    + rewrite W. rewrite (replace_nth_here d ds i Ed). exists L. split; [exact O|exact N].
  - pose proof (make_types_fresh ts P w) as M. destruct (make_map make ts w) as [w1 m]. destruct M as [M [H [NM [FM G]]]]. cbn [fst snd] in *.
    pose proof (own_docs_exists w ds ms L O) as E. pose proof (own_docs_nth w ds i ms L O) as Z. destruct (nth_error ms i) as [m0|] eqn:Em.
    2:{ rewrite (replace_nth_none _ ds i Z), (replace_nth_none _ ms i Em). exists L. cbn [fst snd]. split; [|exact N].
        apply (own_docs_agree w); [exact O|]. intros x Hx. apply G, E, Hx. }
    destruct Z as [d [L1 [R0 [Ed [Od [Pm C]]]]]].
    assert (E1 : forall x, In x R0 -> exists_in w x) by (intros x Hx; apply E, (Permutation_in x (Permutation_sym Pm)), in_or_app; right; exact Hx).
    destruct (C w1 ts m M H) as [L3 [O3 P3]]. { intros x Hx. apply G, E1, Hx. }
    exists L3. cbn [fst snd]. split; [exact O3|]. apply (nodup_perm (M ++ R0)); [symmetry; exact P3|]. apply nodup_app. split; [exact NM|]. split.
    + apply (nodup_perm _ _ Pm) in N. apply nodup_app in N. apply N.
    + intros x Hx Hy. exact (FM x Hx (E1 x Hy)).
Qed.

Lemma uses_separate us : Forall proper_use us -> separate (deep_values us) (deep_refs us).
Proof.
  unfold deep_values, deep_refs. assert (S : separate [] (no_objects, [])) by (exists []; split; [reflexivity|constructor]).
  revert S. generalize (@nil (amap string dtype)), (no_objects, @nil nat). induction us as [|u us IH]; intros ds s S P; [exact S|]. inversion P as [|? ? P1 P2]; subst.
  cbn [fold_left]. apply IH; [|exact P2]. apply use_separate; assumption.
Qed.

(** ** What is behind the references *)

Lemma own_list_some {A} (R : A -> nat -> list addr -> Prop) (f : nat -> option A) ds : (Forall (fun e => forall r L, R (snd e) r L -> f r = Some (snd e)) ds) ->
  forall l L, own_list R ds l L -> all_some (fun e => option_map (pair (fst e)) (f (snd e))) l = Some ds.
Proof.
  induction 1 as [|[k a] ds H _ IH]; intros l L O; cbn [own_list] in O.
  - destruct O as [-> _]. reflexivity.
  - destruct O as [r [l' [L1 [L2 [-> [-> [O1 O2]]]]]]]. cbn [all_some fst snd]. rewrite (H r L1 O1). cbn [option_map obind snd]. rewrite (IH l' L2 O2). reflexivity.
Qed.
Lemma own_map_some {A} look mk (R : A -> nat -> list addr -> Prop) (f : nat -> option A) m i L : own_map look mk R m i L ->
  (Forall (fun e => forall r L, R (snd e) r L -> f r = Some (snd e)) (ents m)) -> exists mm, look i = Some mm /\ map_some f mm = Some m.
Proof.
  intros (mm & L' & O1 & O2 & O3 & O4 & ->) H. exists mm. split; [exact O1|]. unfold map_some. rewrite (own_list_some R f (ents m) H _ _ O4). cbn [option_map]. rewrite O2.
  destruct m; reflexivity.
Qed.

(** The depth of a value. *)
Definition deepest {A} (f : A -> nat) : list (string * A) -> nat := fix go l := match l with [] => O | (_, a) :: l => Nat.max (f a) (go l) end.
Lemma deepest_in {A} (f : A -> nat) l e : In e l -> (f (snd e) <= deepest f l)%nat.
Proof.
  induction l as [|[k a] l IH]; intros []; cbn [deepest].
  - subst. cbn [snd]. lia.
  - specialize (IH H). lia.
Qed.
Fixpoint depth (d : dtype) : nat :=
  match d with
  | TBase _ => 1%nat
  | TExt _ _ fs _ s =>
    S (Nat.max (deepest (fun m => deepest depth (ents m)) (ents fs))
         (match s with SArray _ _ _ (Some t) => depth t | SObject ps _ _ _ _ _ => deepest depth (ents ps) | _ => O end))
  end.

Lemma own_tree w d : forall r L n, own w d r L -> (depth d <= n)%nat -> tree n w r = Some d.
Proof.
  induction d as [b|b x fs c s Hf Hs] using dtype_ind'; intros r L n O D; (destruct n as [|n]; [cbn [depth] in D; lia|]); cbn [own depth] in *; cbn [tree]; unfold load.
  - destruct O as [O _]. rewrite O. reflexivity.
  - destruct O as (f & h & L1 & L2 & O1 & O2 & O3 & _). rewrite O1. cbn [obind].
    (* the facets, in two steps *)
    destruct O2 as (fm & M & Q1 & Q2 & Q3 & Q4 & _). rewrite Q1. cbn [obind].
    assert (Z : exists fl, map_some (nth_error (w_maps w)) fm = Some fl /\ map_some (map_some (tree n w)) fl = Some fs).
    { assert (Y : forall ds l K, own_list (own_map (nth_error (w_maps w)) AMap (own w)) ds l K -> Forall (fun e => In e (ents fs)) ds ->
        exists fl, all_some (fun e => option_map (pair (fst e)) (nth_error (w_maps w) (snd e))) l = Some fl /\
          all_some (fun e => option_map (pair (fst e)) (map_some (tree n w) (snd e))) fl = Some ds).
      { induction ds as [|[k a] ds IHd]; intros l K OK I; cbn [own_list] in OK.
        - destruct OK as [-> _]. exists []. split; reflexivity.
        - destruct OK as [r1 [l1 [K1 [K2 [-> [-> [OK1 OK2]]]]]]]. inversion I as [|? ? I1 I2]; subst. destruct (IHd l1 K2 OK2 I2) as [fl [E1 E2]].
          destruct (own_map_some _ _ (own w) (tree n w) a r1 K1 OK1) as [mm [E3 E4]].
          { unfold facets_all in Hf. rewrite Forall_forall in Hf. specialize (Hf _ I1). cbn [snd] in Hf. rewrite Forall_forall in Hf |- *. intros e He r2 L3 H3.
            apply (Hf e He r2 L3 n H3). pose proof (deepest_in depth (ents a) e He). pose proof (deepest_in (fun m => deepest depth (ents m)) (ents fs) _ I1) as D2. cbn [snd] in D2. lia. }
          exists ((k, mm) :: fl). cbn [all_some fst snd]. rewrite E3. cbn [option_map obind]. rewrite E1. split; [reflexivity|]. cbn [all_some fst snd]. rewrite E4. cbn [option_map obind].
          rewrite E2. reflexivity. }
      destruct (Y (ents fs) (ents fm) M Q4) as [fl [E1 E2]]; [apply Forall_forall; intros e He; exact He|]. exists (mkMap fl (oord fm)). unfold map_some in E2 |- *. rewrite E1. cbn [option_map ents oord].
      split; [reflexivity|]. rewrite E2. cbn [option_map]. rewrite Q2. destruct fs; reflexivity. }
    destruct Z as [fl [E1 E2]]. rewrite E1. cbn [obind].
    destruct h as [u mn mx it|p mn mx ad di dv|o]; cbn [load_spec obind].
    + destruct s as [|u' mn' mx' [t|]|fm'|ft mn' mx'|fm' mn' mx' mu|fm' mn' mx' mu|qs mn' mx' ad di dv|p mn' mx'], it as [i|]; cbn [own_spec] in O3; try contradiction;
        destruct O3 as [E O3]; injection E as -> -> ->; cbn [obind]; rewrite E2; cbn [obind in_spec].
      * cbn [spec_all] in Hs. rewrite (Hs i L2 n O3) by lia. reflexivity.
      * reflexivity.
    + destruct s as [|u' mn' mx' [t|]|fm'|ft mn' mx'|fm' mn' mx' mu|fm' mn' mx' mu|qs mn' mx' ad' di' dv'|p' mn' mx']; cbn [own_spec] in O3; try contradiction.
      destruct O3 as [E O3]. injection E as -> -> -> -> ->. destruct (own_map_some _ _ (own w) (tree n w) qs p L2 O3) as [mm [E3 E4]].
      { cbn [spec_all] in Hs. rewrite Forall_forall in Hs |- *. intros e He r2 L3 H3. apply (Hs e He r2 L3 n H3). pose proof (deepest_in depth (ents qs) e He). lia. }
      rewrite E3. cbn [option_map obind]. rewrite E2. cbn [obind in_spec]. rewrite E4. reflexivity.
    + apply own_other in O3. destruct O3 as [-> _]. rewrite E2. cbn [obind]. destruct o; reflexivity.
Qed.

Lemma own_types_behind w ts m L : own_types w ts m L -> forall n, (deepest depth (ents ts) <= n)%nat -> types_behind n w m = Some ts.
Proof.
  intros O n D. destruct (own_map_some _ _ (own w) (tree n w) ts m L O) as [mm [E1 E2]].
  { apply Forall_forall. intros e He r K H. apply (own_tree w (snd e) r K n H). pose proof (deepest_in depth (ents ts) e He). lia. }
  unfold types_behind. rewrite E1. exact E2.
Qed.

Lemma own_docs_length w ds : forall ms L, own_docs w ds ms L -> List.length ms = List.length ds.
Proof.
  induction ds as [|d ds IH]; intros [|m ms] L O; cbn [own_docs] in O; try contradiction; [reflexivity|]. destruct O as [L1 [L2 [_ [_ O]]]]. cbn [List.length]. f_equal. exact (IH ms L2 O).
Qed.

Theorem deep_values_enough us : Forall proper_use us ->
  List.length (snd (deep_refs us)) = List.length (deep_values us) /\
  forall i ts, nth_error (deep_values us) i = Some ts -> exists m, nth_error (snd (deep_refs us)) i = Some m /\
    exists n0, forall n, (n0 <= n)%nat -> types_behind n (fst (deep_refs us)) m = Some ts.
Proof.
  intros P. destruct (uses_separate us P) as [L [O N]]. split; [exact (own_docs_length _ _ _ _ O)|]. intros i ts E.
  pose proof (own_docs_nth _ _ i _ L O) as H. destruct (nth_error (snd (deep_refs us)) i) as [m|].
  - destruct H as [d [L1 [R0 [Ed [Od _]]]]]. rewrite E in Ed. injection Ed as <-. exists m. split; [reflexivity|]. exists (deepest depth (ents ts)).
    intros n Hn. exact (own_types_behind _ ts m L1 Od n Hn).
  - rewrite E in H. discriminate.
Qed.

Lemma deep_written {F : FloatIO} n w m ts : types_behind n w m = Some ts -> h_types_to_yaml n w m = types_to_yaml to_yaml ts.
Proof.
  unfold types_behind. destruct (nth_error (w_maps w) m) as [mm|] eqn:E; [|discriminate]. cbn [obind]. intros H. exact (tree_types_written n w m mm ts E H).
Qed.
