(** Maps that getters return (C66, C67). *)
From Coq Require Import SpecFloat.
From Verif Require Import Base Num OMap OMapSpec Keys Yaml Values Assign Formats Meta Out Xml Example DataType Marshal Doc Api Library Setters Live LiveSpec.

(** ** Objects and their maps *)

Ltac cases o := destruct o as [a|l|d|e|[b|b x fs k [|? ? ? ?|?|? ? ?|? ? ? ?|? ? ? ?|? ? ? ? ? ?|? ? ?]]].

Lemma slot_dec (s t : slot) : {s = t} + {s <> t}.
Proof. decide equality. Defined.
Lemma slot_index_inj s t : slot_index s = slot_index t -> s = t.
Proof. destruct s, t; intros E; try reflexivity; discriminate E. Qed.
Lemma in_all_slots s : In s all_slots.
Proof. destruct s; cbn; tauto. Qed.
Lemma slot_nth s : nth_error all_slots (slot_index s) = Some s.
Proof. destruct s; reflexivity. Qed.

Lemma get_fits s o c : get_map s o = Some c -> cell_fits s c = true.
Proof. cases o; destruct s; cbn; intros E; try discriminate E; injection E as <-; reflexivity. Qed.
Lemma blank_fits s : cell_fits s (blank_cell s) = true.
Proof. destruct s; reflexivity. Qed.
Lemma edit_fits s e c : cell_fits s (edit_cell e c) = cell_fits s c.
Proof. destruct e, c; reflexivity. Qed.

Lemma get_set_same s c o c0 : cell_fits s c = true -> get_map s o = Some c0 -> get_map s (set_map s c o) = Some c.
Proof. cases o; destruct s; cbn; intros H E; try discriminate E; destruct c; try discriminate H; reflexivity. Qed.
Lemma get_set_other s t c o : s <> t -> get_map t (set_map s c o) = get_map t o.
Proof. cases o; destruct s, c; try reflexivity; destruct t; intros N; try reflexivity; congruence. Qed.
Lemma set_none s c o : get_map s o = None -> set_map s c o = o.
Proof. cases o; destruct s; cbn; intros H; try discriminate H; destruct c; reflexivity. Qed.
Lemma set_misfit s c o : cell_fits s c = false -> set_map s c o = o.
Proof. cases o; destruct s, c; cbn; intros H; try discriminate H; reflexivity. Qed.

Lemma strip_set s c o : strip (set_map s c o) = strip o.
Proof. cases o; destruct s, c; reflexivity. Qed.
Lemma settable_set t s c o : settable t (set_map s c o) = settable t o.
Proof. cases o; destruct s, c; reflexivity. Qed.
Lemma settable_has s o : settable s o = true -> get_map s o <> None.
Proof. cases o; destruct s; cbn; intros H; try discriminate H; discriminate. Qed.
Lemma settable_strip t o : settable t (strip o) = settable t o.
Proof. cases o; reflexivity. Qed.

Definition tag (o : obj) : nat := match o with OApi _ => 0 | OLib _ => 1 | ODoc _ => 2 | OEx _ => 3 | OType (TBase _) => 4 
  | OType (TExt _ _ _ _ p) =>
    match p with SNone => 5 | SArray _ _ _ _ => 6 | SDatetime _ => 7 | SFile _ _ _ => 8 | SInteger _ _ _ _ => 9 | SNumber _ _ _ _ => 10
    | SObject _ _ _ _ _ _ => 11 | SString _ _ _ => 12 end
  end.
Lemma tag_strip o : tag (strip o) = tag o.
Proof. cases o; reflexivity. Qed.

Lemma obj_ext o o' : strip o = strip o' -> (forall s, get_map s o = get_map s o') -> o = o'.
Proof.
  intros E H. pose proof (f_equal tag E) as T. rewrite !tag_strip in T.
  destruct o as [a|l|d|e|[b|b x fs k p]], o' as [a'|l'|d'|e'|[b'|b' x' fs' k' p']]; try discriminate T; try (destruct p; discriminate T); try (destruct p'; discriminate T).
  - pose proof (H SUses) as H1. pose proof (H SSecuritySchemes) as H2. pose proof (H SBaseURIParameters) as H3. pose proof (H STraits) as H4.
    pose proof (H SAnnotationTypes) as H5. pose proof (H SResourceTypes) as H6. pose proof (H SResources) as H7. pose proof (H STypes) as H8.
    pose proof (H SAnnotations) as H9. pose proof (H SExtra) as H10. assert (E' : strip (OApi a) = strip (OApi a')) by exact E. clear E.
    assert (F0 : a_title a = a_title a') by exact (f_equal (fun o => match o with OApi x => a_title x | _ => a_title a end) E').
    assert (F1 : a_description a = a_description a') by exact (f_equal (fun o => match o with OApi x => a_description x | _ => a_description a end) E').
    assert (F2 : a_version a = a_version a') by exact (f_equal (fun o => match o with OApi x => a_version x | _ => a_version a end) E').
    assert (F3 : a_baseURI a = a_baseURI a') by exact (f_equal (fun o => match o with OApi x => a_baseURI x | _ => a_baseURI a end) E').
    assert (F4 : a_protocols a = a_protocols a') by exact (f_equal (fun o => match o with OApi x => a_protocols x | _ => a_protocols a end) E').
    assert (F5 : a_mediaType a = a_mediaType a') by exact (f_equal (fun o => match o with OApi x => a_mediaType x | _ => a_mediaType a end) E').
    assert (F6 : a_documentation a = a_documentation a') by exact (f_equal (fun o => match o with OApi x => a_documentation x | _ => a_documentation a end) E').
    assert (F7 : a_securedBy a = a_securedBy a') by exact (f_equal (fun o => match o with OApi x => a_securedBy x | _ => a_securedBy a end) E').
    clear E' H. destruct a, a'. cbn in *. injection H1 as <-. injection H2 as <-. injection H3 as <-. injection H4 as <-. injection H5 as <-. injection H6 as <-.
    injection H7 as <-. injection H8 as <-. injection H9 as <-. injection H10 as <-. subst. reflexivity.
  - pose proof (H SUses) as H1. pose proof (H SSecuritySchemes) as H2. pose proof (H STraits) as H4.
    pose proof (H SAnnotationTypes) as H5. pose proof (H SResourceTypes) as H6. pose proof (H STypes) as H8.
    pose proof (H SAnnotations) as H9. pose proof (H SExtra) as H10. assert (E' : strip (OLib l) = strip (OLib l')) by exact E. clear E.
    assert (F0 : l_usage l = l_usage l') by exact (f_equal (fun o => match o with OLib x => l_usage x | _ => l_usage l end) E').
    clear E' H. destruct l, l'. cbn in *. injection H1 as <-. injection H2 as <-. injection H4 as <-. injection H5 as <-. injection H6 as <-.
    injection H8 as <-. injection H9 as <-. injection H10 as <-. subst. reflexivity.
  - pose proof (H SExtra) as H1. destruct d, d'. cbn in *. congruence.
  - pose proof (H SExtra) as H1. pose proof (H SAnnotations) as H2. destruct e, e'. cbn in *. congruence.
  - pose proof (H SExtra) as H1. destruct b, b'. cbn in *. congruence.
  - pose proof (H SExtra) as H1. pose proof (H SAnnotations) as H2. pose proof (H SExamples) as H3. pose proof (H SFacetDefinitions) as H4. pose proof (H SProperties) as H5.
    clear H. destruct p, p'; try discriminate T; clear T; destruct b, x, k, b', x', k'; cbn in *; congruence.
Qed.

(** Setters that take no map. *)
Lemma plain_get p o s : is_plain p = true -> get_map s (plain_apply p o) = get_map s o.
Proof.
  destruct p as [op|op|op|op|op]; cases o; try reflexivity; destruct op; intros H; try discriminate H; try reflexivity; destruct s; reflexivity.
Qed.
Lemma plain_strip p o o' : is_plain p = true -> strip o = strip o' -> strip (plain_apply p o) = strip (plain_apply p o').
Proof.
  assert (G : forall o, is_plain p = true -> strip (plain_apply p o) = strip (plain_apply p (strip o))).
  { clear. intros o. destruct p as [op|op|op|op|op]; cases o; try reflexivity; destruct op; intros H; try discriminate H; reflexivity. }
  intros H E. rewrite (G o), (G o'), E by exact H. reflexivity.
Qed.
Lemma plain_settable t p o : settable t (plain_apply p o) = settable t o.
Proof. destruct p as [op|op|op|op|op]; cases o; try reflexivity; destruct op; reflexivity. Qed.

(** ** An object with the maps it has now *)

Definition stored (ms : list cell) (r : slot -> nat) : Prop := forall s, exists c, nth_error ms (r s) = Some c /\ cell_fits s c = true.

Lemma strip_with ms r o l : strip (fold_right (fun s o => match nth_error ms (r s) with Some c => set_map s c o | None => o end) o l) = strip o.
Proof.
  induction l as [|s l IH]; [reflexivity|]. cbn [fold_right]. destruct (nth_error ms (r s)); [rewrite strip_set|]; exact IH.
Qed.
Lemma settable_with ms r o t : settable t (with_maps ms r o) = settable t o.
Proof. rewrite <- settable_strip. unfold with_maps. rewrite strip_with. apply settable_strip. Qed.

Lemma get_with_list ms r o s l : stored ms r ->
  get_map s (fold_right (fun s o => match nth_error ms (r s) with Some c => set_map s c o | None => o end) o l) =
  match get_map s o with
  | None => None
  | Some c => if in_dec slot_dec s l then nth_error ms (r s) else Some c
  end.
Proof.
  intros H. induction l as [|t l IH]; [cbn; destruct (get_map s o); reflexivity|]. cbn [fold_right].
  set (o1 := fold_right _ o l) in *. destruct (H t) as [c [E Fc]]. rewrite E. destruct (slot_dec t s) as [->|N].
  - destruct (get_map s o) as [c0|] eqn:G.
    + destruct (in_dec slot_dec s (s :: l)) as [_|C]; [|destruct C; left; reflexivity].
      destruct (in_dec slot_dec s l) as [_|_]; rewrite ?E in IH; rewrite E; eapply get_set_same; eauto.
    + rewrite set_none by exact IH. exact IH.
  - rewrite get_set_other by exact N. rewrite IH. destruct (get_map s o); [|reflexivity].
    destruct (in_dec slot_dec s l) as [I|I], (in_dec slot_dec s (t :: l)) as [J|J]; try reflexivity; [destruct J; right; exact I|].
    destruct J as [J|J]; [congruence|contradiction].
Qed.

Lemma get_with ms r o s : stored ms r -> get_map s (with_maps ms r o) = match get_map s o with None => None | Some _ => nth_error ms (r s) end.
Proof.
  intros H. unfold with_maps. rewrite (get_with_list ms r o s all_slots H). destruct (get_map s o); [|reflexivity].
  destruct (in_dec slot_dec s all_slots) as [_|C]; [reflexivity|destruct (C (in_all_slots s))].
Qed.

Lemma strip_with_maps ms r o : strip (with_maps ms r o) = strip o.
Proof. apply strip_with. Qed.

(** Two ways to the same object. *)
Lemma with_ext ms r o o' : stored ms r -> strip o' = strip o ->
  (forall s, get_map s o' = match get_map s o with None => None | Some _ => nth_error ms (r s) end) -> with_maps ms r o = o'.
Proof.
  intros H E G. apply obj_ext; [rewrite strip_with_maps; symmetry; exact E|]. intros s. rewrite get_with, G by exact H. reflexivity.
Qed.

(** ** Lists *)

Lemma nth_replace_same {A} i (f : A -> A) l : nth_error (replace_nth i f l) i = option_map f (nth_error l i).
Proof. revert l. induction i as [|i IH]; intros [|a l]; try reflexivity. exact (IH l). Qed.
Lemma nth_replace_other {A} i j (f : A -> A) l : i <> j -> nth_error (replace_nth i f l) j = nth_error l j.
Proof. revert j l. induction i as [|i IH]; intros [|j] [|a l] N; try reflexivity; try congruence. cbn. apply IH. congruence. Qed.
Lemma length_replace {A} i (f : A -> A) l : List.length (replace_nth i f l) = List.length l.
Proof. revert l. induction i as [|i IH]; intros [|a l]; try reflexivity. cbn. f_equal. apply IH. Qed.

Lemma nth_old {A} (l l' : list A) n x : nth_error l n = Some x -> nth_error (l ++ l') n = Some x.
Proof. intros H. rewrite nth_error_app1; [exact H|]. apply nth_error_Some. congruence. Qed.
Lemma nth_new {A} (l : list A) x : nth_error (l ++ [x]) (List.length l) = Some x.
Proof. rewrite nth_error_app2, Nat.sub_diag by lia. reflexivity. Qed.

Lemma update_same r s n : update r s n s = n.
Proof. unfold update. rewrite Nat.eqb_refl. reflexivity. Qed.
Lemma update_other r s n t : t <> s -> update r s n t = r t.
Proof. intros N. unfold update. destruct (Nat.eqb_spec (slot_index t) (slot_index s)) as [E|_]; [|reflexivity]. apply slot_index_inj in E. contradiction. Qed.

(** ** Memory *)

Definition sound (w : memory) : Prop := forall i o r, nth_error (objects w) i = Some (o, r) -> stored (maps w) r.

Lemma stored_more ms ms' r : stored ms r -> stored (ms ++ ms') r.
Proof. intros H s. destruct (H s) as [c [E Fc]]. exists c. split; [apply nth_old; exact E|exact Fc]. Qed.

Lemma stored_update ms r s n c : stored ms r -> nth_error ms n = Some c -> cell_fits s c = true -> stored ms (update r s n).
Proof.
  intros H E Fc t. destruct (slot_dec t s) as [->|N].
  - rewrite update_same. eauto.
  - rewrite update_other by exact N. apply H.
Qed.

Lemma stored_edit ms r n e : stored ms r -> stored (replace_nth n (edit_cell e) ms) r.
Proof.
  intros H s. destruct (H s) as [c [E Fc]]. destruct (Nat.eq_dec n (r s)) as [->|N].
  - exists (edit_cell e c). rewrite nth_replace_same, E, edit_fits. auto.
  - exists c. rewrite nth_replace_other by exact N. auto.
Qed.

Lemma stored_made ms o : stored (ms ++ map (fun s => match get_map s o with Some c => c | None => blank_cell s end) all_slots)
    (fun s => List.length ms + slot_index s).
Proof.
  intros s. exists (match get_map s o with Some c => c | None => blank_cell s end). split.
  - rewrite nth_error_app2 by lia. replace (List.length ms + slot_index s - List.length ms) with (slot_index s) by lia.
    rewrite nth_error_map, slot_nth. reflexivity.
  - destruct (get_map s o) eqn:E; [exact (get_fits _ _ _ E)|apply blank_fits].
Qed.

Lemma nth_replaced {A} i j (f : A -> A) l x : nth_error (replace_nth i f l) j = Some x ->
  exists y, nth_error l j = Some y /\ ((j = i /\ x = f y) \/ (j <> i /\ x = y)).
Proof.
  intros H. destruct (Nat.eq_dec i j) as [<-|N].
  - rewrite nth_replace_same in H. destruct (nth_error l i) as [y|]; [|discriminate]. injection H as <-. exists y. auto.
  - rewrite nth_replace_other in H by exact N. exists x. auto.
Qed.

Lemma sound_unset i s w : sound w -> sound (unset_map i s w).
Proof.
  intros H. unfold unset_map. destruct (nth_error (objects w) i) as [[o r]|] eqn:E; [|exact H]. destruct (settable s o); [|exact H].
  intros j o' r' G. cbn in *. apply nth_replaced in G as [[o0 r0] [G [[-> X]|[N X]]]]; injection X as -> ->.
  - eapply stored_update; [apply stored_more; eapply H; exact G|apply nth_new|apply blank_fits].
  - apply stored_more. eapply H. exact G.
Qed.

Lemma sound_perform c w : sound w -> sound (perform c w).
Proof.
  intros H. destruct c as [o|c1|n e|i s [n|]|i s|i p]; cbn [perform].
  - intros i o' r' G. cbn in *. destruct (Nat.lt_ge_cases i (List.length (objects w))) as [L|L].
    + rewrite nth_error_app1 in G by exact L. apply stored_more. eapply H. exact G.
    + rewrite nth_error_app2 in G by exact L. destruct (i - List.length (objects w)) as [|k]; [|destruct k; discriminate G]. injection G as <- <-. apply stored_made.
  - intros i o' r' G. apply stored_more. eapply H. exact G.
  - intros i o' r' G. apply stored_edit. eapply H. exact G.
  - destruct (nth_error (objects w) i) as [[o r]|] eqn:E; [|exact H]. destruct (nth_error (maps w) n) as [c|] eqn:M; [|exact H].
    destruct (settable s o && cell_fits s c) eqn:B; [|exact H]. apply andb_true_iff in B as [_ B].
    intros j o' r' G. cbn in *. apply nth_replaced in G as [[o0 r0] [G [[-> X]|[N X]]]]; injection X as -> ->.
    + eapply stored_update; [eapply H; exact G|exact M|exact B].
    + eapply H. exact G.
  - apply sound_unset. exact H.
  - apply sound_unset. exact H.
  - destruct (is_plain p); [|exact H]. intros j o' r' G. cbn in *. apply nth_replaced in G as [[o0 r0] [G [[-> X]|[N X]]]]; injection X as -> ->; eapply H; exact G.
Qed.

Lemma sound_performs cs : forall w, sound w -> sound (performs cs w).
Proof. induction cs as [|c cs IH]; intros w H; [exact H|]. apply IH, sound_perform, H. Qed.

Lemma sound_reached w : reached w -> sound w.
Proof. intros [cs ->]. apply sound_performs. intros [|i] o r H; discriminate H. Qed.

(** ** One call *)

Lemma got_view w i s r : sound w -> got w i s = Some r ->
  exists o c, view w i = Some o /\ nth_error (maps w) r = Some c /\ get_map s o = Some c.
Proof.
  intros S H. unfold got, view in *. destruct (nth_error (objects w) i) as [[o r0]|] eqn:E; [|discriminate]. destruct (get_map s o) as [c0|] eqn:G; [|discriminate].
  injection H as <-. destruct (S i o r0 E s) as [c [Ec _]]. exists (with_maps (maps w) r0 o), c. split; [reflexivity|]. split; [exact Ec|].
  rewrite get_with, G by exact (S i o r0 E). exact Ec.
Qed.

Lemma has_view w i o : sound w -> view w i = Some o -> forall s, get_map s o = None <-> got w i s = None.
Proof.
  intros S H s. unfold got, view in *. destruct (nth_error (objects w) i) as [[o0 r0]|] eqn:E; [|discriminate]. injection H as <-.
  rewrite get_with by exact (S i o0 r0 E). destruct (get_map s o0); [|tauto]. destruct (S i o0 r0 E s) as [c1 [-> _]]. split; discriminate.
Qed.

Lemma view_edit w r e i o : sound w -> view w i = Some o ->
  exists o', view (perform (Edit r e) w) i = Some o' /\ edited_in (fun s => got w i s = Some r) e o o'.
Proof.
  intros S H. unfold view, got in *. cbn [perform objects maps]. destruct (nth_error (objects w) i) as [[o0 r0]|] eqn:E; [|discriminate]. injection H as <-.
  pose proof (S i o0 r0 E) as St. eexists. split; [reflexivity|]. split; [rewrite !strip_with_maps; reflexivity|].
  intros s. rewrite !get_with by (try apply stored_edit; exact St). destruct (get_map s o0) as [c0|]; [|split; [discriminate|reflexivity]]. split.
  - intros Q. injection Q as Q. rewrite Q, nth_replace_same. reflexivity.
  - intros Q. apply nth_replace_other. intros ->. apply Q. reflexivity.
Qed.

Lemma edited_nowhere e o o' (P : slot -> Prop) : (forall s, ~ P s) -> edited_in P e o o' -> o' = o.
Proof. intros N [E H]. apply obj_ext; [exact E|]. intros s. apply H, N. Qed.

Lemma view_edit_elsewhere w r e i : sound w -> (forall s, got w i s <> Some r) -> view (perform (Edit r e) w) i = view w i.
Proof.
  intros S N. destruct (view w i) as [o|] eqn:E.
  - destruct (view_edit w r e i o S E) as [o' [-> H]]. f_equal. exact (edited_nowhere _ _ _ _ N H).
  - unfold view in *. cbn. destruct (nth_error (objects w) i) as [[]|]; [discriminate|reflexivity].
Qed.

Lemma with_more ms ms' r o : stored ms r -> with_maps (ms ++ ms') r o = with_maps ms r o.
Proof.
  intros H. apply with_ext; [apply stored_more; exact H|apply strip_with_maps|]. intros s. rewrite get_with by exact H. destruct (get_map s o); [|reflexivity].
  destruct (H s) as [c1 [E _]]. rewrite E. symmetry. apply nth_old. exact E.
Qed.

Lemma with_update ms r s n o c : stored ms r -> nth_error ms n = Some c -> cell_fits s c = true -> get_map s o <> None ->
  with_maps ms (update r s n) o = set_map s c (with_maps ms r o).
Proof.
  intros H E Fc Hs. pose proof (stored_update ms r s n c H E Fc) as H'. apply with_ext; [exact H'|rewrite strip_set; apply strip_with_maps|].
  intros t. destruct (slot_dec t s) as [->|N].
  - rewrite update_same, E. destruct (get_map s o) as [c0|] eqn:G; [|congruence].
    destruct (H s) as [c1 [E1 _]]. apply (get_set_same s c _ c1 Fc). rewrite get_with, G by exact H. exact E1.
  - rewrite get_set_other by congruence. rewrite get_with, update_other by assumption. reflexivity.
Qed.

Lemma view_set_map w i s r o c : sound w -> view w i = Some o -> nth_error (maps w) r = Some c -> settable s o = true -> cell_fits s c = true ->
  view (perform (SetMap i s (Some r)) w) i = Some (set_map s c o) /\ got (perform (SetMap i s (Some r)) w) i s = Some r /\
  (forall j t, j <> i \/ t <> s -> got (perform (SetMap i s (Some r)) w) j t = got w j t) /\
  (forall j, j <> i -> view (perform (SetMap i s (Some r)) w) j = view w j) /\ maps (perform (SetMap i s (Some r)) w) = maps w.
Proof.
  intros S V E B Fc. unfold view, got in *. destruct (nth_error (objects w) i) as [[o0 r0]|] eqn:Eo; [|discriminate]. injection V as <-.
  rewrite settable_with in B. cbn [perform]. rewrite Eo, E, B, Fc. cbn [andb objects maps]. pose proof (S i o0 r0 Eo) as St. pose proof (settable_has s o0 B) as Hs.
  rewrite nth_replace_same, Eo. cbn [option_map fst snd]. repeat split.
  - f_equal. apply with_update; assumption.
  - rewrite update_same. destruct (get_map s o0); [reflexivity|congruence].
  - intros j t N. destruct (Nat.eq_dec i j) as [<-|M].
    + rewrite nth_replace_same, Eo. cbn [option_map fst snd]. rewrite update_other by (destruct N; congruence). reflexivity.
    + rewrite nth_replace_other by exact M. reflexivity.
  - intros j N. rewrite nth_replace_other by congruence. reflexivity.
Qed.

Lemma view_unset w i s o : sound w -> view w i = Some o -> settable s o = true ->
  view (unset_map i s w) i = Some (set_map s (blank_cell s) o) /\ got (unset_map i s w) i s = Some (List.length (maps w)) /\
  (forall j t, j <> i \/ t <> s -> got (unset_map i s w) j t = got w j t) /\
  (forall j, j <> i -> view (unset_map i s w) j = view w j) /\ maps (unset_map i s w) = maps w ++ [blank_cell s].
Proof.
  intros S V B. unfold view, got, unset_map in *. destruct (nth_error (objects w) i) as [[o0 r0]|] eqn:Eo; [|discriminate]. injection V as <-.
  rewrite settable_with in B. rewrite B. cbn [objects maps]. pose proof (S i o0 r0 Eo) as St. pose proof (settable_has s o0 B) as Hs.
  rewrite nth_replace_same, Eo. cbn [option_map fst snd]. repeat split.
  - f_equal. rewrite (with_update _ _ _ _ _ (blank_cell s)); [rewrite with_more by exact St; reflexivity|apply stored_more; exact St|apply nth_new|apply blank_fits|exact Hs].
  - rewrite update_same. destruct (get_map s o0); [reflexivity|congruence].
  - intros j t N. destruct (Nat.eq_dec i j) as [<-|M].
    + rewrite nth_replace_same, Eo. cbn [option_map fst snd]. rewrite update_other by (destruct N; congruence). reflexivity.
    + rewrite nth_replace_other by exact M. reflexivity.
  - intros j N. rewrite nth_replace_other by congruence. destruct (nth_error (objects w) j) as [[o1 r1]|] eqn:Ej; [|reflexivity].
    rewrite with_more by exact (S j o1 r1 Ej). reflexivity.
Qed.

Lemma view_plain w i p : sound w -> is_plain p = true ->
  view (perform (SetPlain i p) w) i = option_map (plain_apply p) (view w i) /\
  (forall j, j <> i -> view (perform (SetPlain i p) w) j = view w j) /\
  (forall j t, got (perform (SetPlain i p) w) j t = got w j t) /\ maps (perform (SetPlain i p) w) = maps w.
Proof.
  intros S P. unfold view, got. cbn [perform]. rewrite P. cbn [objects maps]. repeat split.
  - rewrite nth_replace_same. destruct (nth_error (objects w) i) as [[o r]|] eqn:E; [|reflexivity]. cbn [option_map fst snd]. f_equal.
    pose proof (S i o r E) as St. apply with_ext; [exact St| |].
    + apply plain_strip; [exact P|]. apply strip_with_maps.
    + intros s. rewrite !plain_get, get_with by assumption. reflexivity.
  - intros j N. rewrite nth_replace_other by congruence. reflexivity.
  - intros j t. destruct (Nat.eq_dec i j) as [<-|N].
    + rewrite nth_replace_same. destruct (nth_error (objects w) i) as [[o r]|]; [|reflexivity]. cbn [option_map fst snd]. rewrite plain_get by exact P. reflexivity.
    + rewrite nth_replace_other by exact N. reflexivity.
Qed.

Lemma view_make w o : sound w ->
  view (perform (Make o) w) (List.length (objects w)) = Some o /\
  (forall s, get_map s o <> None -> got (perform (Make o) w) (List.length (objects w)) s = Some (List.length (maps w) + slot_index s)) /\
  (forall j, j < List.length (objects w) -> view (perform (Make o) w) j = view w j /\ forall t, got (perform (Make o) w) j t = got w j t).
Proof.
  intros S. unfold view, got. cbn [perform objects maps]. rewrite nth_new. split; [|split].
  - f_equal. apply with_ext; [apply stored_made|reflexivity|]. intros s. destruct (get_map s o) as [c|] eqn:E; [|reflexivity].
    rewrite nth_error_app2 by lia. replace (List.length (maps w) + slot_index s - List.length (maps w)) with (slot_index s) by lia.
    rewrite nth_error_map, slot_nth. cbn. rewrite E. reflexivity.
  - intros s H. destruct (get_map s o); [reflexivity|congruence].
  - intros j L. rewrite nth_error_app1 by exact L. destruct (nth_error (objects w) j) as [[o1 r1]|] eqn:E; [|split; reflexivity].
    split; [|reflexivity]. rewrite with_more by exact (S j o1 r1 E). reflexivity.
Qed.

Lemma got_old w i s r : sound w -> got w i s = Some r -> r < List.length (maps w).
Proof. intros S H. destruct (got_view w i s r S H) as [o [c [_ [E _]]]]. apply nth_error_Some. congruence. Qed.

(** ** Histories *)

Lemma unset_got i s w j t : ~ (j = i /\ t = s) -> got (unset_map i s w) j t = got w j t.
Proof.
  intros N. unfold unset_map, got. destruct (nth_error (objects w) i) as [[o r]|] eqn:E; [|reflexivity]. destruct (settable s o); [|reflexivity]. cbn [objects].
  destruct (Nat.eq_dec i j) as [<-|M].
  - rewrite nth_replace_same, E. cbn [option_map fst snd]. rewrite update_other by tauto. reflexivity.
  - rewrite nth_replace_other by exact M. reflexivity.
Qed.

Lemma perform_got c w i s r : got w i s = Some r -> ~ replaces i s c -> got (perform c w) i s = Some r.
Proof.
  intros G N. destruct c as [o|c|n e|i' s' [n|]|i' s'|i' p]; cbn [perform replaces] in *.
  - unfold got in *. cbn [objects]. destruct (nth_error (objects w) i) as [x|] eqn:E; [|discriminate]. rewrite (nth_old _ _ _ _ E). exact G.
  - exact G.
  - exact G.
  - unfold got in *. destruct (nth_error (objects w) i') as [[o' r']|] eqn:E'; [|exact G]. destruct (nth_error (maps w) n) as [c|]; [|exact G].
    destruct (settable s' o' && cell_fits s' c); [|exact G]. cbn [objects]. destruct (Nat.eq_dec i' i) as [->|M].
    + rewrite nth_replace_same, E'. rewrite E' in G. cbn [option_map fst snd]. rewrite update_other; [exact G|]. intros ->. apply N. auto.
    + rewrite nth_replace_other by exact M. exact G.
  - rewrite unset_got by (intros [-> ->]; apply N; auto). exact G.
  - rewrite unset_got by (intros [-> ->]; apply N; auto). exact G.
  - destruct (is_plain p) eqn:P; [|exact G]. unfold got in *. cbn [objects]. destruct (Nat.eq_dec i' i) as [->|M].
    + rewrite nth_replace_same. destruct (nth_error (objects w) i) as [[o r0]|]; [|discriminate]. cbn [option_map fst snd]. rewrite plain_get by exact P. exact G.
    + rewrite nth_replace_other by exact M. exact G.
Qed.

Lemma performs_got cs : forall w i s r, got w i s = Some r -> Forall (fun c => ~ replaces i s c) cs -> got (performs cs w) i s = Some r.
Proof.
  induction cs as [|c cs IH]; intros w i s r G N; [exact G|]. inversion N as [|x l N1 N2]; subst. apply (IH (perform c w)); [|exact N2]. apply perform_got; assumption.
Qed.

Lemma unset_maps i s w r c : nth_error (maps w) r = Some c -> nth_error (maps (unset_map i s w)) r = Some c.
Proof.
  intros H. unfold unset_map. destruct (nth_error (objects w) i) as [[o r0]|]; [|exact H]. destruct (settable s o); [|exact H]. apply nth_old. exact H.
Qed.

Lemma perform_maps c w r m : nth_error (maps w) r = Some m ->
  nth_error (maps (perform c w)) r = Some (fold_left (fun m e => edit_cell e m) (edits_of r [c]) m).
Proof.
  intros H. destruct c as [o|c|n e|i' s' [n|]|i' s'|i' p]; cbn [perform edits_of fold_left].
  - apply nth_old. exact H.
  - apply nth_old. exact H.
  - cbn [maps]. destruct (Nat.eqb_spec n r) as [->|N]; cbn [fold_left].
    + rewrite nth_replace_same, H. reflexivity.
    + rewrite nth_replace_other by exact N. exact H.
  - destruct (nth_error (objects w) i') as [[o' r']|]; [|exact H]. destruct (nth_error (maps w) n) as [c|]; [|exact H].
    destruct (settable s' o' && cell_fits s' c); exact H.
  - apply unset_maps. exact H.
  - apply unset_maps. exact H.
  - destruct (is_plain p); exact H.
Qed.

Lemma performs_maps cs : forall w r m, nth_error (maps w) r = Some m ->
  nth_error (maps (performs cs w)) r = Some (fold_left (fun m e => edit_cell e m) (edits_of r cs) m).
Proof.
  induction cs as [|c cs IH]; intros w r m H; [exact H|]. change (performs (c :: cs) w) with (performs cs (perform c w)).
  rewrite (IH _ _ _ (perform_maps c w r m H)). f_equal. destruct c as [o|c|n e|i s q|i s|i p]; try reflexivity. cbn [edits_of]. destruct (Nat.eqb n r); reflexivity.
Qed.

Lemma live cs w i s r o c : reached w -> got w i s = Some r -> view w i = Some o -> get_map s o = Some c ->
  Forall (fun c => ~ replaces i s c) cs ->
  got (performs cs w) i s = Some r /\
  exists o', view (performs cs w) i = Some o' /\ get_map s o' = Some (fold_left (fun m e => edit_cell e m) (edits_of r cs) c).
Proof.
  intros R G V M N. pose proof (sound_reached w R) as S. destruct (got_view w i s r S G) as [o1 [c1 [V1 [E1 M1]]]]. rewrite V in V1. injection V1 as <-.
  rewrite M in M1. injection M1 as <-. pose proof (performs_got cs w i s r G N) as G'. split; [exact G'|].
  destruct (got_view _ i s r (sound_performs cs w S) G') as [o' [c' [V' [E' M']]]]. rewrite (performs_maps cs w r c E1) in E'. injection E' as <-. eauto.
Qed.

(** ** Maps of their own *)

Definition separated (w : memory) : Prop := forall i j s t r, got w i s = Some r -> got w j t = Some r -> i = j /\ s = t.

Lemma got_slot w i s r : got w i s = Some r -> exists o, nth_error (objects w) i = Some (o, snd (nth i (objects w) (o, fun _ => 0))) /\ get_map s o <> None.
Proof.
  unfold got. destruct (nth_error (objects w) i) as [[o r0]|] eqn:E; [|discriminate]. intros H. exists o. rewrite (nth_error_nth _ _ _ E). split; [reflexivity|].
  intros C. rewrite C in H. discriminate.
Qed.

Lemma got_made w o i s r : got (perform (Make o) w) i s = Some r ->
  (i = List.length (objects w) /\ r = List.length (maps w) + slot_index s) \/ got w i s = Some r.
Proof.
  unfold got. cbn [perform objects]. destruct (Nat.lt_ge_cases i (List.length (objects w))) as [L|L].
  - rewrite nth_error_app1 by exact L. auto.
  - rewrite nth_error_app2 by exact L. destruct (i - List.length (objects w)) as [|k] eqn:D; [|destruct k; discriminate].
    cbn [nth_error]. destruct (get_map s o); [|discriminate]. intros H. injection H as <-. left. split; [lia|reflexivity].
Qed.

Lemma separated_unset i s w : sound w -> separated w -> separated (unset_map i s w).
Proof.
  intros S H. unfold unset_map. destruct (nth_error (objects w) i) as [[o r]|] eqn:E; [|exact H]. destruct (settable s o) eqn:B; [|exact H].
  assert (V : view w i = Some (with_maps (maps w) r o)) by (unfold view; rewrite E; reflexivity).
  destruct (view_unset w i s _ S V) as [_ [G1 [G2 _]]]; [rewrite settable_with; exact B|].
  unfold unset_map in G1, G2. rewrite E, B in G1, G2. set (w' := mkMem _ _) in *.
  assert (D : forall j t, {j = i /\ t = s} + {j <> i \/ t <> s}) by (intros j t; destruct (Nat.eq_dec j i), (slot_dec t s); tauto).
  intros j k t u q A A'. destruct (D j t) as [[-> ->]|N], (D k u) as [[-> ->]|N']; auto.
  - rewrite G1 in A. injection A as <-. rewrite (G2 k u N') in A'. apply (got_old w k u _ S) in A'. lia.
  - rewrite G1 in A'. injection A' as <-. rewrite (G2 j t N) in A. apply (got_old w j t _ S) in A. lia.
  - rewrite (G2 j t N) in A. rewrite (G2 k u N') in A'. eapply H; eassumption.
Qed.

Lemma separated_perform c w : sound w -> separated w -> ~ gives_map c -> separated (perform c w).
Proof.
  intros S H N. destruct c as [o|c|n e|i s [n|]|i s|i p].
  - intros i j s t r A A'. apply got_made in A as [[-> ->]|A], A' as [[Q Q']|A'] || apply got_made in A' as [[Q Q']|A'].
    + split; [auto|]. apply slot_index_inj. lia.
    + apply (got_old w _ _ _ S) in A'. lia.
    + apply (got_old w _ _ _ S) in A. lia.
    + eapply H; eassumption.
  - exact H.
  - exact H.
  - destruct N. exact I.
  - apply separated_unset; assumption.
  - apply separated_unset; assumption.
  - intros j k t u r A A'. destruct (is_plain p) eqn:P.
    + destruct (view_plain w i p S P) as [_ [_ [G _]]]. rewrite G in A, A'. eapply H; eassumption.
    + cbn [perform] in A, A'. rewrite P in A, A'. eapply H; eassumption.
Qed.

Lemma own_maps cs i j s t r : Forall (fun c => ~ gives_map c) cs ->
  got (performs cs no_memory) i s = Some r -> got (performs cs no_memory) j t = Some r -> i = j /\ s = t.
Proof.
  intros N. assert (G : forall w, sound w -> separated w -> sound (performs cs w) /\ separated (performs cs w)).
  { clear i j s t r. induction N as [|c cs N _ IH]; intros w S H; [auto|]. apply (IH (perform c w)); [apply sound_perform; exact S|apply separated_perform; assumption]. }
  destruct (G no_memory) as [_ X]; [intros [|k] o q H; discriminate H|intros [|k] l u v q H; discriminate H|]. apply X.
Qed.

(** ** Objects as values *)

Inductive vcall : Type :=
| VMake (o : obj) | VEdit (i : nat) (s : slot) (e : edit) | VGive (i : nat) (s : slot) (c : cell) | VUnset (i : nat) (s : slot) | VPlain (i : nat) (p : plain_op).
Definition v_calls (w : memory) (v : vcall) : list call :=
  match v with
  | VMake o => [Make o]
  | VEdit i s e => match got w i s with Some r => [Edit r e] | None => [] end
  | VGive i s c => [MakeMap c; SetMap i s (Some (List.length (maps w)))]
  | VUnset i s => [UnsetMap i s]
  | VPlain i p => [SetPlain i p]
  end.
Definition v_value (v : vcall) (os : list obj) : list obj :=
  match v with
  | VMake o => os ++ [o]
  | VEdit i s e => replace_nth i (fun o => match get_map s o with Some c => set_map s (edit_cell e c) o | None => o end) os
  | VGive i s c => replace_nth i (fun o => if settable s o && cell_fits s c then set_map s c o else o) os
  | VUnset i s => replace_nth i (fun o => if settable s o then set_map s (blank_cell s) o else o) os
  | VPlain i p => if is_plain p then replace_nth i (plain_apply p) os else os
  end.

Definition simulates (w : memory) (os : list obj) : Prop := sound w /\ separated w /\ forall i, view w i = nth_error os i.

Lemma view_bound w i o : view w i = Some o -> i < List.length (objects w).
Proof. unfold view. destruct (nth_error (objects w) i) eqn:E; [|discriminate]. intros _. apply nth_error_Some. congruence. Qed.
Lemma view_none w i : view w i = None <-> List.length (objects w) <= i.
Proof. unfold view. rewrite <- nth_error_None. destruct (nth_error (objects w) i) as [[]|]; split; congruence. Qed.

Lemma nth_error_ext {A} (l l' : list A) : (forall i, nth_error l i = nth_error l' i) -> l = l'.
Proof.
  revert l'. induction l as [|a l IH]; intros [|b l'] H; [reflexivity|discriminate (H 0)|discriminate (H 0)|].
  pose proof (H 0) as E. injection E as ->. f_equal. apply IH. intros i. exact (H (S i)).
Qed.

Lemma same_length w os : (forall i, view w i = nth_error os i) -> List.length os = List.length (objects w).
Proof.
  intros H. pose proof (proj2 (nth_error_None os (List.length os)) (le_n _)) as A. rewrite <- H in A. apply view_none in A.
  pose proof (proj2 (view_none w (List.length (objects w))) (le_n _)) as B. rewrite H in B. apply nth_error_None in B. lia.
Qed.

Lemma replace_none {A} i (f : A -> A) l : nth_error l i = None -> replace_nth i f l = l.
Proof. revert l. induction i as [|i IH]; intros [|a l] H; try reflexivity; [discriminate H|]. cbn. f_equal. apply IH. exact H. Qed.
Lemma replace_id {A} i (f : A -> A) l x : nth_error l i = Some x -> f x = x -> replace_nth i f l = l.
Proof. revert l. induction i as [|i IH]; intros [|a l] H E; try discriminate H; cbn; f_equal; [injection H as ->; exact E|apply IH; assumption]. Qed.

Lemma simulates_v w os v : simulates w os -> simulates (performs (v_calls w v) w) (v_value v os).
Proof.
  intros [S [P V]]. destruct v as [o|i s e|i s c|i s|i p]; cbn [v_calls v_value performs fold_left].
  - split; [apply sound_perform; exact S|]. split; [apply separated_perform; [exact S|exact P|intros []]|].
    destruct (view_make w o S) as [V1 [_ V2]]. intros i. pose proof (same_length w os V) as L.
    destruct (Nat.lt_trichotomy i (List.length (objects w))) as [Q|[->|Q]].
    + rewrite (proj1 (V2 i Q)), V. symmetry. apply nth_error_app1. lia.
    + rewrite V1, <- L. symmetry. apply nth_new.
    + replace (view (perform (Make o) w) i) with (@None obj); [symmetry; apply nth_error_None; rewrite app_length; cbn; lia|].
      symmetry. apply view_none. cbn [perform objects]. rewrite app_length. cbn. lia.
  - destruct (got w i s) as [r|] eqn:G.
    + cbn [performs fold_left]. split; [apply sound_perform; exact S|]. split; [apply separated_perform; [exact S|exact P|intros []]|].
      intros j. destruct (Nat.eq_dec i j) as [<-|N].
      * rewrite nth_replace_same, <- V. destruct (got_view w i s r S G) as [o [c [Vo [E M]]]]. rewrite Vo. cbn [option_map]. rewrite M.
        destruct (view_edit w r e i o S Vo) as [o' [-> [E1 E2]]]. f_equal. apply obj_ext; [rewrite strip_set; exact E1|].
        intros t. destruct (slot_dec s t) as [<-|N].
        -- rewrite (proj1 (E2 s) G), M. cbn [option_map]. symmetry. apply (get_set_same s _ o c); [rewrite edit_fits; exact (get_fits _ _ _ M)|exact M].
        -- rewrite get_set_other by exact N. apply E2. intros C. destruct (P i i s t r G C) as [_ X]. contradiction.
      * rewrite nth_replace_other, <- V by exact N. apply view_edit_elsewhere; [exact S|]. intros t C. destruct (P i j s t r G C) as [X _]. contradiction.
    + cbn [performs fold_left]. split; [exact S|]. split; [exact P|]. intros j. destruct (nth_error os i) as [o|] eqn:E.
      * rewrite (replace_id i _ os o E); [apply V|]. rewrite <- V in E. rewrite (proj2 (has_view w i o S E s) G). reflexivity.
      * rewrite replace_none by exact E. apply V.
  - set (w1 := perform (MakeMap c) w). assert (S1 : sound w1) by (apply sound_perform; exact S).
    assert (P1 : separated w1) by (apply separated_perform; [exact S|exact P|intros []]).
    assert (V1 : forall j, view w1 j = nth_error os j).
    { intros j. rewrite <- V. unfold view, w1. cbn [perform objects maps]. destruct (nth_error (objects w) j) as [[o1 r1]|] eqn:E; [|reflexivity].
      rewrite with_more by exact (S j o1 r1 E). reflexivity. }
    assert (M1 : nth_error (maps w1) (List.length (maps w)) = Some c) by apply nth_new.
    assert (U1 : forall j t q, got w1 j t = Some q -> q < List.length (maps w)) by (intros j t q A; apply (got_old w j t q S); exact A).
    split; [apply sound_perform; exact S1|]. destruct (nth_error os i) as [o|] eqn:E.
    + pose proof E as E'. rewrite <- V1 in E'. destruct (settable s o && cell_fits s c) eqn:B.
      * apply andb_true_iff in B as [B1 B2]. destruct (view_set_map w1 i s _ o c S1 E' M1 B1 B2) as [A1 [A2 [A3 [A4 _]]]]. split.
        -- assert (D : forall j t, {j = i /\ t = s} + {j <> i \/ t <> s}) by (intros j t; destruct (Nat.eq_dec j i), (slot_dec t s); tauto).
           intros j k t u q X Y. destruct (D j t) as [[-> ->]|N], (D k u) as [[-> ->]|N']; auto.
           ++ rewrite A2 in X. injection X as <-. rewrite (A3 k u N') in Y. apply U1 in Y. lia.
           ++ rewrite A2 in Y. injection Y as <-. rewrite (A3 j t N) in X. apply U1 in X. lia.
           ++ rewrite (A3 j t N) in X. rewrite (A3 k u N') in Y. eapply P1; eassumption.
        -- intros j. destruct (Nat.eq_dec i j) as [<-|N].
           ++ rewrite A1, nth_replace_same, E. cbn [option_map]. rewrite B1, B2. reflexivity.
           ++ rewrite nth_replace_other, A4 by congruence. apply V1.
      * assert (Z : perform (SetMap i s (Some (List.length (maps w)))) w1 = w1).
        { cbn [perform]. rewrite M1. unfold view in E'. destruct (nth_error (objects w1) i) as [[o0 r0]|]; [|reflexivity]. injection E' as <-.
          rewrite settable_with in B. rewrite B. reflexivity. }
        rewrite Z. split; [exact P1|]. intros j. rewrite (replace_id i _ os o E); [apply V1|]. rewrite B. reflexivity.
    + assert (Z : perform (SetMap i s (Some (List.length (maps w)))) w1 = w1).
      { rewrite <- V1 in E. unfold view in E. cbn [perform]. destruct (nth_error (objects w1) i) as [[o0 r0]|]; [discriminate|reflexivity]. }
      rewrite Z. split; [exact P1|]. intros j. rewrite replace_none by exact E. apply V1.
  - split; [apply sound_perform; exact S|]. split; [apply separated_perform; [exact S|exact P|intros []]|]. cbn [perform].
    destruct (nth_error os i) as [o|] eqn:E.
    + pose proof E as E'. rewrite <- V in E'. destruct (settable s o) eqn:B.
      * destruct (view_unset w i s o S E' B) as [A1 [_ [_ [A4 _]]]]. intros j. destruct (Nat.eq_dec i j) as [<-|N].
        -- rewrite A1, nth_replace_same, E. cbn [option_map]. rewrite B. reflexivity.
        -- rewrite nth_replace_other, A4 by congruence. apply V.
      * intros j. rewrite (replace_id i _ os o E) by (rewrite B; reflexivity). rewrite <- V. f_equal. unfold unset_map. unfold view in E'.
        destruct (nth_error (objects w) i) as [[o0 r0]|]; [|reflexivity]. injection E' as <-. rewrite settable_with in B. rewrite B. reflexivity.
    + intros j. rewrite replace_none by exact E. rewrite <- V. f_equal. rewrite <- V in E. unfold unset_map. unfold view in E.
      destruct (nth_error (objects w) i) as [[o0 r0]|]; [discriminate|reflexivity].
  - split; [apply sound_perform; exact S|]. split; [apply separated_perform; [exact S|exact P|intros []]|].
    destruct (is_plain p) eqn:B.
    + destruct (view_plain w i p S B) as [A1 [A2 _]]. intros j. destruct (Nat.eq_dec i j) as [<-|N].
      * rewrite A1, nth_replace_same, V. reflexivity.
      * rewrite A2, nth_replace_other by congruence. apply V.
    + intros j. cbn [perform]. rewrite B. apply V.
Qed.

Lemma setter_sets p s q o : map_op p = Some (s, q) -> has_method p o = true ->
  match q with None => True | Some c => cell_fits s c = true end /\
  plain_apply p o = if settable s o then set_map s (match q with Some c => c | None => blank_cell s end) o else o.
Proof.
  intros M H. destruct p as [op|op|op|op|op]; cases o; try discriminate H; destruct op; cbn in M; try discriminate M; injection M as <- <-;
    try match goal with |- context[option_map _ ?m] => destruct m end; split; reflexivity || exact I.
Qed.

Lemma no_method p o : has_method p o = false -> plain_apply p o = o.
Proof. destruct p, o; intros H; reflexivity || discriminate H. Qed.

Lemma replace_same {A} i (f g : A -> A) l : (forall x, nth_error l i = Some x -> f x = g x) -> replace_nth i f l = replace_nth i g l.
Proof. revert l. induction i as [|i IH]; intros [|a l] H; try reflexivity; cbn; f_equal; [apply H; reflexivity|apply IH; exact H]. Qed.

Lemma simulates_one w os u : simulates w os -> simulates (performs (as_calls w u) w) (on_value u os).
Proof.
  intros S. destruct u as [o|i s e|i p]; [exact (simulates_v w os (VMake o) S)|exact (simulates_v w os (VEdit i s e) S)|].
  cbn [as_calls on_value]. destruct S as [S1 [S2 S3]]. destruct (view w i) as [o|] eqn:V.
  2:{ rewrite S3 in V. rewrite replace_none by exact V. exact (conj S1 (conj S2 S3)). }
  pose proof V as V'. rewrite S3 in V'. destruct (has_method p o) eqn:H.
  2:{ rewrite (replace_id i _ os o V') by (apply no_method; exact H). exact (conj S1 (conj S2 S3)). }
  assert (S : simulates w os) by (exact (conj S1 (conj S2 S3))). destruct (map_op p) as [[s q]|] eqn:M.
  - destruct (setter_sets p s q o M H) as [C E]. destruct q as [c|].
    + pose proof (simulates_v w os (VGive i s c) S) as X. cbn [v_calls v_value] in X. rewrite (replace_same i _ (plain_apply p) os) in X; [exact X|].
      intros x Q. rewrite V' in Q. injection Q as <-. rewrite E, C, andb_true_r. reflexivity.
    + pose proof (simulates_v w os (VUnset i s) S) as X. cbn [v_calls v_value] in X. rewrite (replace_same i _ (plain_apply p) os) in X; [exact X|].
      intros x Q. rewrite V' in Q. injection Q as <-. rewrite E. reflexivity.
  - pose proof (simulates_v w os (VPlain i p) S) as X. cbn [v_calls v_value] in X. replace (is_plain p) with true in X by (unfold is_plain; rewrite M; reflexivity). exact X.
Qed.

Lemma values_enough us i : view (by_reference us no_memory) i = nth_error (by_value us []) i.
Proof.
  assert (G : forall w os, simulates w os -> simulates (by_reference us w) (by_value us os)).
  { induction us as [|u us IH]; intros w os H; [exact H|]. apply (IH (performs (as_calls w u) w)). apply simulates_one. exact H. }
  apply G. split; [intros [|k] o r H; discriminate H|]. split; [intros [|k] l u v q H; discriminate H|]. intros [|k]; reflexivity.
Qed.
