(** C76: what an edit in one place means, what is saved, and that documents that are read qualify. *)
From Coq Require Import SpecFloat Relations Permutation.
From Verif Require Import Base Num OMap OMapSpec Keys Yaml Values Assign Formats Meta Out Xml Example DataType Marshal Doc Api Library Setters Heap
  AssignProofs TypeFacts Fields FieldProofs FacetSpec FacetProofs DocProofs TypeWrite OrderProofs PathProofs HeapSpec HeapProofs HeapEdit Live Deep DeepProofs WasRead.

(** ** Edits of values *)

Definition sort_of (p : part) : nat := match p with PDef _ => 0 | PTypes _ => 1 | PFacets _ => 2 end.

Lemma edit_part_sort e p : sort_of (edit_part e p) = sort_of p.
Proof. destruct e, p; reflexivity. Qed.
Lemma put_part_sort g q p : sort_of (put_part g q p) = sort_of p.
Proof. destruct g, q, p as [[b|b x fs c [|u mn mx it|fm|t mn mx|fm mn mx mu|fm mn mx mu|ps mn mx ad di dv|s mn mx]]|tm|tm]; reflexivity. Qed.
Lemma edit_at_sort gs e p : sort_of (edit_at gs e p) = sort_of p.
Proof. destruct gs as [|g gs]; cbn [edit_at]; [apply edit_part_sort|]. destruct (get_part g p); [apply put_part_sort|reflexivity]. Qed.

Lemma sget_replace {A} k (a b : A) l : sget String.eqb k l = Some b -> sget String.eqb k (sreplace String.eqb k a l) = Some a.
Proof.
  induction l as [|[k' v] l IH]; [discriminate|]. rewrite sreplace_cons. unfold sget in *. cbn [find fst].
  destruct (String.eqb_spec k' k) as [->|Hk]; cbn [find fst].
  - rewrite String.eqb_refl. reflexivity.
  - destruct (String.eqb_spec k' k); [contradiction|]. exact IH.
Qed.
Lemma sget_replace_other {A} k k' (a : A) l : k <> k' -> sget String.eqb k' (sreplace String.eqb k a l) = sget String.eqb k' l.
Proof.
  intros N. induction l as [|[k1 v] l IH]; [reflexivity|]. rewrite sreplace_cons. unfold sget in *. destruct (String.eqb_spec k1 k) as [->|Hk]; cbn [find fst].
  - destruct (String.eqb_spec k k'); [contradiction|]. exact IH.
  - destruct (String.eqb k1 k'); [reflexivity|exact IH].
Qed.

Lemma get_put g q q' p : get_part g p = Some q -> sort_of q' = sort_of q -> get_part g (put_part g q' p) = Some q'.
Proof.
  intros G S. destruct g as [k| | |], p as [[b|b x fs c [|u mn mx [t|]|fm|t mn mx|fm mn mx mu|fm mn mx mu|ps mn mx ad di dv|s mn mx]]|m|m]; cbn [get_part option_map] in G; try discriminate.
  - destruct (sget String.eqb k (ents m)) as [d|] eqn:E; [|discriminate]. injection G as <-. destruct q'; try discriminate. cbn [put_part get_part ents]. rewrite (sget_replace k _ d _ E). reflexivity.
  - destruct (sget String.eqb k (ents m)) as [d|] eqn:E; [|discriminate]. injection G as <-. destruct q'; try discriminate. cbn [put_part get_part ents]. rewrite (sget_replace k _ d _ E). reflexivity.
  - injection G as <-. destruct q'; try discriminate. reflexivity.
  - injection G as <-. destruct q'; try discriminate. reflexivity.
  - injection G as <-. destruct q'; try discriminate. reflexivity.
  - injection G as <-. destruct q'; try discriminate. reflexivity.
  - injection G as <-. destruct q'; try discriminate. reflexivity.
  - injection G as <-. destruct q'; try discriminate. reflexivity.
  - injection G as <-. destruct q'; try discriminate. reflexivity.
  - injection G as <-. destruct q'; try discriminate. reflexivity.
  - injection G as <-. destruct q'; try discriminate. reflexivity.
  - injection G as <-. destruct q'; try discriminate. reflexivity.
  - injection G as <-. destruct q'; try discriminate. reflexivity.
Qed.
Lemma get_put_other g h q p : g <> h -> get_part h (put_part g q p) = get_part h p.
Proof.
  intros N. destruct g as [k| | |], h as [k'| | |], q as [d|m'|m'], p as [[b|b x fs c [|u mn mx it|fm|t mn mx|fm mn mx mu|fm mn mx mu|ps mn mx ad di dv|s mn mx]]|m|m];
    try (elim N; reflexivity); try reflexivity; cbn [put_part get_part ents]; rewrite sget_replace_other by congruence; reflexivity.
Qed.

Lemma edit_here gs e : forall p q, follow gs p = Some q -> follow gs (edit_at gs e p) = Some (edit_part e q).
Proof.
  induction gs as [|g gs IH]; intros p q H; cbn [follow edit_at] in *; [injection H as <-; reflexivity|]. destruct (get_part g p) as [r|] eqn:G; [|discriminate]. cbn [obind] in H.
  rewrite (get_put g r _ p G (edit_at_sort gs e r)). cbn [obind]. exact (IH r q H).
Qed.
Lemma edit_elsewhere gs hs e : parting gs hs -> forall p, follow hs (edit_at gs e p) = follow hs p.
Proof.
  induction 1 as [g h gs hs N|g gs hs _ IH]; intros p; cbn [follow edit_at]; destruct (get_part g p) as [r|] eqn:G; try reflexivity.
  - rewrite get_put_other by exact N. reflexivity.
  - rewrite (get_put g r _ p G (edit_at_sort gs e r)). cbn [obind]. apply IH.
  - rewrite G. reflexivity.
Qed.

(** ** Saving *)

Lemma behind_nonempty n w m ts mm : types_behind n w m = Some ts -> nth_error (w_maps w) m = Some mm -> nonempty mm = nonempty ts.
Proof.
  unfold types_behind. intros H E. rewrite E in H. cbn [obind] in H. symmetry. exact (map_some_nonempty _ _ _ H).
Qed.

Lemma api_saved {F : FloatIO} n w a m ts : types_behind n w m = Some ts -> h_api_marshal n w a m = api_marshal (a_set_types ts a).
Proof.
  intros H. unfold h_api_marshal. destruct (nth_error (w_maps w) m) as [mm|] eqn:E; [|unfold types_behind in H; rewrite E in H; discriminate].
  rewrite (deep_written n w m ts H), (behind_nonempty n w m ts mm H E). reflexivity.
Qed.
Lemma lib_saved {F : FloatIO} n w l m ts : types_behind n w m = Some ts -> h_lib_marshal n w l m = lib_marshal (l_set_types ts l).
Proof.
  intros H. unfold h_lib_marshal. destruct (nth_error (w_maps w) m) as [mm|] eqn:E; [|unfold types_behind in H; rewrite E in H; discriminate].
  rewrite (deep_written n w m ts H), (behind_nonempty n w m ts mm H E). reflexivity.
Qed.

(** ** Documents that are read *)

Lemma map_read_proper {A} b (Q P : A -> Prop) (m : amap string A) : map_read b (fun _ => Q) m -> (forall k a, In (k, a) (ents m) -> Q a -> P a) -> proper_map P m.
Proof.
  intros [_ [N H]] I. split; [exact N|]. apply all_of_forall, Forall_forall. intros [k a] He. exact (I k a He (H k a He)).
Qed.

Lemma hat_proper {F : FloatIO} n : forall d, hat n = Ok d -> proper d.
Proof.
  induction n as [n IH] using node_strong_ind. intros d H. pose proof (hat_read n d H) as R. destruct d as [b|b x fs c s]; cbn [proper]; [exact I|]. split.
  - specialize (R FFacets (VFacets fs) eq_refl). cbn [field_read] in R. apply (map_read_proper _ _ (proper_map proper) _ R). intros k m _ Hm.
    apply (map_read_proper _ _ proper _ Hm). intros k' t _ [n' [Hn Ht]]. exact (IH n' Hn t Ht).
  - destruct s as [|u mn mx [t|]|fm|ft mn mx|fm mn mx mu|fm mn mx mu|ps mn mx ad di dv|p mn mx]; try exact I.
    + specialize (R FItems (VOptType (Some t)) eq_refl). cbn [field_read] in R. destruct R as [n' [Hn Ht]]. exact (IH n' Hn t Ht).
    + specialize (R FProps (VTypes ps) eq_refl). cbn [field_read] in R. apply (map_read_proper _ _ proper _ R). intros k t _ [[n' [Hn Ht]] _]. exact (IH n' Hn t Ht).
Qed.

Lemma read_types_proper {F : FloatIO} m n m' : read_amap hat m n = Ok m' -> proper_map proper m -> proper_map proper m'.
Proof.
  intros H [N P]. assert (R : map_read (oord m) (fun _ => proper) m').
  { apply (read_amap_read hat (oord m) (fun _ => proper) m n m' H).
    - split; [reflexivity|]. split; [exact N|]. intros k v Hi. rewrite all_of_forall, Forall_forall in P. exact (P _ Hi).
    - intros v nv _ Hv k. exact (hat_proper nv v Hv). }
  apply (map_read_proper _ _ proper _ R). intros k a _ Ha. exact Ha.
Qed.

Lemma api_assign_proper {F : FloatIO} a e a' : api_assign a e = Ok a' -> proper_map proper (a_types a) -> proper_map proper (a_types a').
Proof.
  unfold api_assign. intros H P. destruct (is_string (fst e)); cbn [negb] in H.
  2:{ apply bind_ok in H as [s [_ H]]. injection H as <-. exact P. }
  destruct (value (fst e)) as [|c k]; [discriminate|].
  repeat match type of H with (if ?b then _ else _) = _ => destruct b end;
    try (apply bind_ok in H as [v [Hv H]]; injection H as <-; first [exact P|exact (read_types_proper _ _ _ Hv P)]).
  injection H as <-. exact P.
Qed.
Lemma lib_assign_proper {F : FloatIO} a e a' : lib_assign a e = Ok a' -> proper_map proper (l_types a) -> proper_map proper (l_types a').
Proof.
  unfold lib_assign. intros H P.
  repeat match type of H with (if ?b then _ else _) = _ => destruct b end;
    try (apply bind_ok in H as [v [Hv H]]; injection H as <-; first [exact P|exact (read_types_proper _ _ _ Hv P)]).
  destruct (value (fst e)) as [|c k]; [discriminate|]. destruct (Ascii.eqb c "("); apply bind_ok in H as [v [Hv H]]; injection H as <-; exact P.
Qed.
Lemma fold_proper {S} (f : S -> node * node -> res S) (P : S -> Prop) : (forall s e s', f s e = Ok s' -> P s -> P s') -> forall l s s', fold_res f s l = Ok s' -> P s -> P s'.
Proof.
  intros Hf. induction l as [|e l IH]; intros s s' H Hs; cbn [fold_res] in H; [injection H as <-; exact Hs|]. apply bind_ok in H as [s1 [H1 H]]. exact (IH s1 s' H (Hf s e s1 H1 Hs)).
Qed.

Lemma api_proper {F : FloatIO} n a : api_unmarshal n new_api = Ok a -> proper_map proper (a_types a).
Proof.
  unfold api_unmarshal, map_fold. destruct n as [t v|t l|t l]; try discriminate. intros H.
  apply (fold_proper api_assign (fun a => proper_map proper (a_types a)) api_assign_proper l new_api a H). exact (blank_proper proper).
Qed.
Lemma lib_proper {F : FloatIO} n a : lib_unmarshal n new_library = Ok a -> proper_map proper (l_types a).
Proof.
  unfold lib_unmarshal, map_fold. destruct n as [t v|t l|t l]; try discriminate. intros H.
  apply (fold_proper lib_assign (fun a => proper_map proper (l_types a)) lib_assign_proper l new_library a H). exact (blank_proper proper).
Qed.

(** ** Programs *)

Lemma types_are_values us i ts : Forall proper_use us -> types_are us i ts <-> nth_error (deep_values us) i = Some ts.
Proof.
  intros P. destruct (deep_values_enough us P) as [L H]. split; [|exact (H i ts)]. intros [m [Em [n0 Hn]]].
  destruct (nth_error (deep_values us) i) as [ts'|] eqn:E.
  - destruct (H i ts' E) as [m' [Em' [n1 Hn1]]]. rewrite Em in Em'. injection Em' as <-. pose proof (Hn (n0 + n1)%nat ltac:(lia)) as A. rewrite (Hn1 (n0 + n1)%nat ltac:(lia)) in A. exact A.
  - apply nth_error_None in E. assert (i < List.length (snd (deep_refs us)))%nat by (apply nth_error_Some; congruence). lia.
Qed.

Lemma nth_replace {A} (f : A -> A) : forall l i j, nth_error (replace_nth i f l) j = if (i =? j)%nat then option_map f (nth_error l j) else nth_error l j.
Proof.
  induction l as [|a l IH]; intros [|i] [|j]; cbn [replace_nth nth_error option_map Nat.eqb]; try reflexivity.
  - destruct (i =? j)%nat; reflexivity.
  - apply IH.
Qed.

Lemma step_types us u : Forall proper_use us -> proper_use u -> forall j ts, types_are us j ts ->
  types_are (us ++ [u]) j
    (match u with
     | Begin _ => ts
     | Change i gs e => if (i =? j)%nat then match edit_at gs e (PTypes ts) with PTypes ts' => ts' | _ => ts end else ts
     | NewTypes i ts' => if (i =? j)%nat then ts' else ts
     end).
Proof.
  intros P Pu j ts H. apply types_are_values in H; [|exact P]. apply types_are_values; [apply Forall_app; split; [exact P|constructor; [exact Pu|constructor]]|].
  unfold deep_values in *. rewrite fold_left_app. cbn [fold_left]. set (ds := fold_left (fun ds u => deep_value u ds) us []) in *. destruct u as [t|i gs e|i t]; cbn [deep_value].
  - rewrite nth_error_app1; [exact H|]. apply nth_error_Some. congruence.
  - rewrite nth_replace, H. destruct (i =? j)%nat; reflexivity.
  - rewrite nth_replace, H. destruct (i =? j)%nat; reflexivity.
Qed.

Lemma change_types us i gs e ts q : Forall proper_use us -> proper_op e -> types_are us i ts -> follow gs (PTypes ts) = Some q ->
  (exists ts', types_are (us ++ [Change i gs e]) i ts' /\ follow gs (PTypes ts') = Some (edit_part e q) /\
     forall hs, parting gs hs -> follow hs (PTypes ts') = follow hs (PTypes ts)) /\
  forall j ts1, j <> i -> types_are us j ts1 -> types_are (us ++ [Change i gs e]) j ts1.
Proof.
  intros P Pe H E. split.
  - pose proof (step_types us (Change i gs e) P Pe i ts H) as S. cbn iota in S. rewrite Nat.eqb_refl in S. pose proof (edit_at_sort gs e (PTypes ts)) as Q.
    pose proof (edit_here gs e (PTypes ts) q E) as Hh. pose proof (fun hs Hp => edit_elsewhere gs hs e Hp (PTypes ts)) as He.
    destruct (edit_at gs e (PTypes ts)) as [d|ts'|fs]; try discriminate. exists ts'. split; [exact S|]. split; [exact Hh|exact He].
  - intros j ts1 N H1. pose proof (step_types us (Change i gs e) P Pe j ts1 H1) as S. cbn iota in S. destruct (Nat.eqb_spec i j); [congruence|exact S].
Qed.
Lemma own_nowhere w gs e : forall p a L, own_part w p a L -> follow gs p = None -> edit_at gs e p = p.
Proof.
  induction gs as [|g gs IH]; intros p a L O H; cbn [follow edit_at] in *; [discriminate|]. pose proof (own_hop w p a L g O) as Q. destruct (get_part g p) as [q|] eqn:G; [|reflexivity].
  destruct Q as [a1 [L1 [R0 [_ [O1 _]]]]]. cbn [obind] in H. rewrite (IH q a1 L1 O1 H). exact (put_same w p a L g q O G).
Qed.
Lemma change_nowhere us i gs e ts : Forall proper_use us -> proper_op e -> types_are us i ts -> follow gs (PTypes ts) = None -> types_are (us ++ [Change i gs e]) i ts.
Proof.
  intros P Pe H E. pose proof (step_types us (Change i gs e) P Pe i ts H) as S. cbn iota in S. rewrite Nat.eqb_refl in S.
  apply types_are_values in H; [|exact P]. destruct (uses_separate us P) as [L [O _]]. pose proof (own_docs_nth _ _ i _ _ O) as Q.
  destruct (nth_error (snd (deep_refs us)) i) as [m|]; [|congruence]. destruct Q as [d [L1 [R0 [Ed [Od _]]]]]. rewrite H in Ed. injection Ed as <-.
  rewrite (own_nowhere (fst (deep_refs us)) gs e (PTypes ts) (AMap m) L1 Od E) in S. exact S.
Qed.
Lemma begin_types us ts : Forall proper_use us -> proper_map proper ts ->
  types_are (us ++ [Begin ts]) (List.length (snd (deep_refs us))) ts /\ forall j ts1, types_are us j ts1 -> types_are (us ++ [Begin ts]) j ts1.
Proof.
  intros P Pt. split; [|intros j ts1 H; exact (step_types us (Begin ts) P Pt j ts1 H)].
  apply types_are_values; [apply Forall_app; split; [exact P|constructor; [exact Pt|constructor]]|]. rewrite (proj1 (deep_values_enough us P)).
  unfold deep_values. rewrite fold_left_app. cbn [fold_left deep_value]. rewrite nth_error_app2, Nat.sub_diag by lia. reflexivity.
Qed.
Lemma set_types us i ts0 ts : Forall proper_use us -> proper_map proper ts -> types_are us i ts0 ->
  types_are (us ++ [NewTypes i ts]) i ts /\ forall j ts1, j <> i -> types_are us j ts1 -> types_are (us ++ [NewTypes i ts]) j ts1.
Proof.
  intros P Pt H. split.
  - pose proof (step_types us (NewTypes i ts) P Pt i ts0 H) as S. cbn iota in S. rewrite Nat.eqb_refl in S. exact S.
  - intros j ts1 N H1. pose proof (step_types us (NewTypes i ts) P Pt j ts1 H1) as S. cbn iota in S. destruct (Nat.eqb_spec i j); [congruence|exact S].
Qed.
Lemma types_one us i : Forall proper_use us -> (i < List.length (snd (deep_refs us)))%nat -> exists ts, types_are us i ts /\ forall ts', types_are us i ts' -> ts' = ts.
Proof.
  intros P L. rewrite (proj1 (deep_values_enough us P)) in L. destruct (nth_error (deep_values us) i) as [ts|] eqn:E; [|apply nth_error_None in E; lia].
  exists ts. split; [apply types_are_values; assumption|]. intros ts' H. apply types_are_values in H; [|exact P]. congruence.
Qed.
Lemma types_saved {F : FloatIO} us i ts : types_are us i ts ->
  exists m n0, nth_error (snd (deep_refs us)) i = Some m /\ forall n, (n0 <= n)%nat -> forall a l,
    h_api_marshal n (fst (deep_refs us)) a m = api_marshal (a_set_types ts a) /\ h_lib_marshal n (fst (deep_refs us)) l m = lib_marshal (l_set_types ts l).
Proof.
  intros [m [E [n0 H]]]. exists m, n0. split; [exact E|]. intros n L a l. split; [apply api_saved, H, L|apply lib_saved, H, L].
Qed.
