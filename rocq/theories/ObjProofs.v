(** C79: things, and objects in memory. *)
From Coq Require Import SpecFloat.
From Verif Require Import Base Num OMap OMapSpec Keys Yaml Values Assign Formats Meta Out Xml Example DataType Marshal Doc Api Library Setters Live Objects.

(** ** Names *)

Lemma field_eqb_eq f g : field_eqb f g = true <-> f = g.
Proof. split; [destruct f, g; intros H; try discriminate H; reflexivity|intros ->; destruct g; reflexivity]. Qed.
Lemma name_eqb_eq n m : name_eqb n m = true <-> n = m.
Proof.
  destruct n as [f|k|i], m as [g|l|j]; cbn [name_eqb]; try (split; discriminate).
  - rewrite field_eqb_eq. split; congruence.
  - rewrite String.eqb_eq. split; congruence.
  - rewrite Nat.eqb_eq. split; congruence.
Qed.
Lemma name_eqb_refl n : name_eqb n n = true.
Proof. apply name_eqb_eq. reflexivity. Qed.
Lemma name_eqb_neq n m : n <> m -> name_eqb n m = false.
Proof. intros H. destruct (name_eqb n m) eqn:E; [|reflexivity]. apply name_eqb_eq in E. contradiction. Qed.

(** ** Laying out *)

Lemma branches_keyed {A} (f : A -> tree) (g : A -> thing) (m : amap string A) : (forall a, f a = lay (g a)) -> branches f m = lay_all (keyed g m).
Proof. intros H. unfold branches, lay_all, keyed. rewrite map_map. apply map_ext. intros e. cbn [fst snd option_map]. rewrite H. reflexivity. Qed.
Lemma lay_indexed_eq : forall l i, lay_indexed i l = lay_all (indexed ThDoc i l).
Proof. induction l as [|d l IH]; intros i; [reflexivity|]. cbn [lay_indexed indexed lay_all map fst snd option_map]. rewrite IH. reflexivity. Qed.
Lemma lay_eq t : lay t = Tree (bare t) (lay_all (parts t)).
Proof.
  destruct t as [a|l|d|e|x|d|l|m|m|m|m|m|m|m]; try reflexivity.
  - cbn [lay parts lay_all map fst snd option_map]. destruct (a_documentation a); reflexivity.
  - destruct d as [b|b x fs c s]; [reflexivity|]. destruct x as [di de an [xm|] rq], c as [df [e|] exs en], s as [|u mn mx [it|]|fm|ft mn mx|fm mn mx mu|fm mn mx mu|ps mn mx ad ds dv|p mn mx]; reflexivity.
  - cbn [lay parts]. unfold lay_docs. rewrite lay_indexed_eq. reflexivity.
  - cbn [lay parts]. unfold lay_defs. rewrite (branches_keyed lay_def ThDef m (fun _ => eq_refl)). reflexivity.
  - cbn [lay parts]. unfold lay_facets. rewrite (branches_keyed lay_defs ThDefs m (fun _ => eq_refl)). reflexivity.
  - cbn [lay parts]. unfold lay_exs. rewrite (branches_keyed lay_ex ThEx m (fun _ => eq_refl)). reflexivity.
  - cbn [lay parts]. unfold lay_anns. rewrite (branches_keyed (fun u => leaf (ThUntyped u)) ThUntyped m (fun _ => eq_refl)). reflexivity.
Qed.

(** ** Edits of things and of what their getters lead to *)

Section Named.
  Context {A B : Type} (f : A -> B).
  Let g := fun e : string * A => (NKey (fst e), Some (f (snd e))).

  Lemma named_filter k : forall l, filter (other name_eqb (NKey k)) (map g l) = map g (filter (other String.eqb k) l).
  Proof.
    induction l as [|[x a] l IH]; [reflexivity|]. cbn [map filter]. replace (other name_eqb (NKey k) (g (x, a))) with (other String.eqb k (x, a)) by reflexivity.
    destruct (other String.eqb k (x, a)); [|exact IH]. cbn [map]. rewrite IH. reflexivity.
  Qed.
  Lemma named_replace k a : forall l, sreplace name_eqb (NKey k) (Some (f a)) (map g l) = map g (sreplace String.eqb k a l).
  Proof.
    intros l. unfold sreplace. rewrite !map_map. apply map_ext. intros [x b]. unfold g. cbn [fst snd name_eqb]. destruct (String.eqb x k); reflexivity.
  Qed.
  Lemma named_put k a l : sput name_eqb (NKey k) (Some (f a)) (map g l) = map g (sput String.eqb k a l).
  Proof. unfold sput, sdelete. rewrite named_filter, map_app. reflexivity. Qed.
  Lemma named_get k : forall l, sget name_eqb (NKey k) (map g l) = option_map (fun a => Some (f a)) (sget String.eqb k l).
  Proof.
    unfold sget. induction l as [|[x b] l IH]; [reflexivity|]. cbn [map find]. unfold g at 1. cbn [fst name_eqb]. destruct (String.eqb x k); [reflexivity|exact IH].
  Qed.
  Lemma named_has k l : shas name_eqb (NKey k) (map g l) = shas String.eqb k l.
  Proof. unfold shas. induction l as [|[x b] l IH]; [reflexivity|]. cbn [map existsb]. rewrite IH. reflexivity. Qed.

  Lemma named_edit (o : op string A) (m : amap string A) :
    map g (ents (map_edit String.eqb o m)) = change_ptrs (Entries (op_names f o)) (map g (ents m)).
  Proof.
    unfold map_edit, change_ptrs. cbn [ents]. destruct o as [k v|k [v|]|k v|k v|k|b|k|k|k| |j|k| ]; cbn [op_names option_map sstep]; try reflexivity.
    - symmetry. apply named_put.
    - symmetry. apply named_put.
    - rewrite named_has, named_replace, named_put. destruct (shas String.eqb k (ents m)); reflexivity.
    - symmetry. apply named_replace.
    - symmetry. apply named_filter.
    - assert (S : forall l : list (string * A), sat j (map g l) = option_map g (sat j l)).
      { intros l. unfold sat. destruct (j <? 0)%Z; [reflexivity|apply nth_error_map]. }
      rewrite S. destruct (sat j (ents m)); reflexivity.
  Qed.
End Named.

Lemma keyed_edit {A} (th : A -> thing) (o : op string A) (m : amap string A) : keyed th (map_edit String.eqb o m) = change_ptrs (Entries (op_names th o)) (keyed th m).
Proof. exact (named_edit th o m). Qed.

Lemma fits_bare a t : fits a (bare t) = fits a t.
Proof. destruct t as [p|l|[b|b x fs c s]|e|x|d|l|m|m|m|m|m|m|m]; destruct a; reflexivity. Qed.
Lemma not_fits a t : fits a t = false -> act_on a t = t.
Proof. destruct t as [p|l|[b|b x fs c s]|e|x|d|l|m|m|m|m|m|m|m]; destruct a; intros H; try discriminate H; reflexivity. Qed.
Lemma bare_bare t : bare (bare t) = bare t.
Proof. destruct t as [p|l|[b|b x fs c [|u mn mx it|fm|ft mn mx|fm mn mx mu|fm mn mx mu|ps mn mx ad ds dv|p mn mx]]|e|x|d|l|m|m|m|m|m|m|m]; reflexivity. Qed.
Lemma act_bare a t : fits a t = true -> bare (act_on a t) = bare (act_on a (bare t)).
Proof.
  destruct t as [p|l|[b|b x fs c s]|e|x|d|l|m|m|m|m|m|m|m]; destruct a as [op|op|op|op|op|op|o|o|o|o|o|o|o]; intros H; try discriminate H; clear H; try reflexivity.
  - destruct op; reflexivity.
  - destruct op; reflexivity.
  - cbn [act_on bare]. unfold type_apply. destruct op; try reflexivity; destruct s; reflexivity.
  - destruct op; reflexivity.
  - destruct op; reflexivity.
Qed.
Lemma act_parts a t : fits a t = true -> parts (act_on a t) = change_ptrs (change_of a) (parts t).
Proof.
  destruct t as [p|l|[b|b x fs c s]|e|x|d|l|m|m|m|m|m|m|m]; destruct a as [op|op|op|op|op|op|o|o|o|o|o|o|o]; intros H; try discriminate H; clear H; try reflexivity; try apply keyed_edit.
  - destruct op; reflexivity.
  - destruct op; reflexivity.
  - cbn [act_on]. unfold type_apply. destruct s as [|u mn mx it|fm|ft mn mx|fm mn mx mu|fm mn mx mu|ps mn mx ad ds dv|p mn mx]; destruct op; reflexivity.
  - destruct op; reflexivity.
  - destruct op; reflexivity.
Qed.

(** ** Replacing a part *)

Definition sort (t : thing) : nat :=
  match t with
  | ThApi _ => 0 | ThLib _ => 1 | ThDef _ => 2 | ThEx _ => 3 | ThXml _ => 4 | ThDoc _ => 5 | ThDocs _ => 6 | ThDefs _ => 7 | ThFacets _ => 8 | ThExs _ => 9 | ThAnns _ => 10
  | ThUntyped _ => 11 | ThStrings _ => 12 | ThExtra _ => 13
  end%nat.
Lemma act_sort a t : sort (act_on a t) = sort t.
Proof. destruct t; destruct a; reflexivity. Qed.
Lemma put_sort n q t : sort (put_part n q t) = sort t.
Proof.
  destruct t as [p|l|[b|b x fs c s]|e|x|d|l|m|m|m|m|m|m|m]; cbn [put_part]; destruct n as [f|k|i]; try reflexivity; try (destruct f; try reflexivity); destruct q; try reflexivity; destruct s; reflexivity.
Qed.

Lemma indexed_replace d : forall l i j, indexed ThDoc j (replace_nth i (fun _ => d) l) = sreplace name_eqb (NIndex (j + i)) (Some (ThDoc d)) (indexed ThDoc j l).
Proof.
  assert (Later : forall l i j, (i < j)%nat -> sreplace name_eqb (NIndex i) (Some (ThDoc d)) (indexed ThDoc j l) = indexed ThDoc j l).
  { induction l as [|a l IH]; intros i j H; [reflexivity|]. cbn [indexed sreplace map fst name_eqb]. replace (j =? i)%nat with false by (symmetry; apply Nat.eqb_neq; lia). f_equal. apply IH. lia. }
  induction l as [|a l IH]; intros [|i] j; try reflexivity; cbn [replace_nth indexed sreplace map fst name_eqb].
  - replace (j =? j + 0)%nat with true by (symmetry; apply Nat.eqb_eq; lia). f_equal. symmetry. apply Later. lia.
  - replace (j =? j + S i)%nat with false by (symmetry; apply Nat.eqb_neq; lia). f_equal. rewrite IH. replace (S j + i)%nat with (j + S i)%nat by lia. reflexivity.
Qed.

Lemma put_bare n q t : bare (put_part n q t) = bare t.
Proof.
  destruct t as [p|l|[b|b x fs c s]|e|x|d|l|m|m|m|m|m|m|m]; cbn [put_part]; destruct n as [f|k|i]; try reflexivity; try (destruct f; try reflexivity); destruct q; try reflexivity; destruct s; reflexivity.
Qed.
Lemma keyed_sort {A} (th : A -> thing) k m q0 : sget name_eqb (NKey k) (keyed th m) = Some (Some q0) -> exists a, q0 = th a.
Proof. unfold keyed. rewrite (named_get th k (ents m)). destruct (sget String.eqb k (ents m)) as [a|]; [|discriminate]. cbn. intros H. injection H as <-. exists a. reflexivity. Qed.
Lemma keyed_other {A} (th : A -> thing) n m o : sget name_eqb n (keyed th m) = Some o -> exists k, n = NKey k.
Proof. unfold sget, keyed. induction (ents m) as [|[k a] l IH]; [discriminate|]. cbn [map find fst]. destruct (name_eqb (NKey k) n) eqn:E; [|exact IH]. intros _. exists k. symmetry. apply name_eqb_eq, E. Qed.
Lemma indexed_other n : forall l j o, sget name_eqb n (indexed ThDoc j l) = Some o -> exists i d, n = NIndex i /\ o = Some (ThDoc d).
Proof.
  unfold sget. induction l as [|d l IH]; intros j o; [discriminate|]. cbn [indexed find fst]. destruct (name_eqb (NIndex j) n) eqn:E; [|apply IH]. cbn. intros H. injection H as <-.
  exists j, d. split; [symmetry; apply name_eqb_eq, E|reflexivity].
Qed.

Lemma put_parts n q0 q t : get_part n t = Some q0 -> sort q = sort q0 -> parts (put_part n q t) = sreplace name_eqb n (Some q) (parts t).
Proof.
  unfold get_part. destruct (sget name_eqb n (parts t)) as [o|] eqn:E; [|discriminate]. intros -> S.
  destruct t as [p|l|[b|b x fs c s]|e|x|d|l|m|m|m|m|m|m|m]; try discriminate E.
  - destruct n as [f|k|i]; try discriminate E. destruct f; try discriminate E; cbn in E; try (injection E as <-); try (destruct (a_documentation p); [|discriminate E]; injection E as <-); destruct q; try discriminate S; reflexivity.
  - destruct n as [f|k|i]; try discriminate E. destruct f; try discriminate E; cbn in E; injection E as <-; destruct q; try discriminate S; reflexivity.
  - destruct n as [f|k|i]; try discriminate E. destruct f; try discriminate E; cbn in E; injection E as <-; destruct q; try discriminate S; reflexivity.
  - destruct s as [|u mn mx it|fm|ft mn mx|fm mn mx mu|fm mn mx mu|ps mn mx ad ds dv|p mn mx]; destruct n as [f|k|i]; try discriminate E; destruct f; try discriminate E; cbn in E; try (injection E as E); subst;
      try (destruct (x_xml x); [|discriminate E]; injection E as <-); try (destruct (c_example c); [|discriminate E]; injection E as <-); try (destruct it; [|discriminate E]; injection E as <-);
      destruct q; try discriminate S; reflexivity.
  - destruct n as [f|k|i]; try discriminate E. destruct f; try discriminate E; cbn in E; injection E as <-; destruct q; try discriminate S; reflexivity.
  - destruct n as [f|k|i]; try discriminate E. destruct f; try discriminate E; cbn in E; injection E as <-; destruct q; try discriminate S; reflexivity.
  - cbn [parts] in E. destruct (indexed_other n l 0%nat _ E) as [i [d [-> Hd]]]. injection Hd as ->. destruct q; try discriminate S. cbn [put_part parts]. apply (indexed_replace d0 l i 0%nat).
  - cbn [parts] in E. destruct (keyed_other _ _ _ _ E) as [k ->]. destruct (keyed_sort _ _ _ _ E) as [a ->]. destruct q; try discriminate S. symmetry. apply (named_replace ThDef).
  - cbn [parts] in E. destruct (keyed_other _ _ _ _ E) as [k ->]. destruct (keyed_sort _ _ _ _ E) as [a ->]. destruct q; try discriminate S. symmetry. apply (named_replace ThDefs).
  - cbn [parts] in E. destruct (keyed_other _ _ _ _ E) as [k ->]. destruct (keyed_sort _ _ _ _ E) as [a ->]. destruct q; try discriminate S. symmetry. apply (named_replace ThEx).
  - cbn [parts] in E. destruct (keyed_other _ _ _ _ E) as [k ->]. destruct (keyed_sort _ _ _ _ E) as [a ->]. destruct q; try discriminate S. symmetry. apply (named_replace ThUntyped).
Qed.
Lemma edit_sort ns a : forall t, sort (edit_at ns a t) = sort t.
Proof. destruct ns as [|n ns]; intros t; [apply act_sort|]. cbn [edit_at]. destruct (get_part n t); [apply put_sort|reflexivity]. Qed.
