(** Proofs of C84 and C85. *)
From Coq Require Import SpecFloat.
From Verif Require Import Base Num OMap OMapSpec Keys Yaml Values Assign Formats Meta Out Xml Example DataType Marshal Doc Api Library TypeFacts Setters SetterSpec Live Objects
  ObjProofs ObjHeap ObjPrograms Independent.

(** ** Things by what they have and lead to *)

Lemma thing_ext t t' : bare t = bare t' -> parts t = parts t' -> t = t'.
Proof. intros B P. rewrite <- (join_parts t), <- (join_parts t'), B, P. reflexivity. Qed.

Lemma replace_replace {A} n (v w : A) l : sreplace name_eqb n v (sreplace name_eqb n w l) = sreplace name_eqb n v l.
Proof.
  unfold sreplace. rewrite map_map. apply map_ext. intros [m x]. cbn [fst]. destruct (name_eqb m n) eqn:E; cbn [fst]; rewrite E; reflexivity.
Qed.
Lemma replace_swap {A} n m (v w : A) l : n <> m -> sreplace name_eqb n v (sreplace name_eqb m w l) = sreplace name_eqb m w (sreplace name_eqb n v l).
Proof.
  intros D. unfold sreplace. rewrite !map_map. apply map_ext. intros [x y]. cbn [fst]. destruct (name_eqb x m) eqn:E, (name_eqb x n) eqn:E'; cbn [fst]; rewrite ?E, ?E'; try reflexivity.
  apply name_eqb_eq in E. apply name_eqb_eq in E'. congruence.
Qed.

(** A getter after and before another *)
Lemma edit_step n ns ms a b t : edit_at (n :: ns) a (edit_at (n :: ms) b t) = match get_part n t with Some q => put_part n (edit_at ns a (edit_at ms b q)) t | None => t end.
Proof.
  cbn [edit_at]. destruct (get_part n t) as [q|] eqn:E; [|rewrite E; reflexivity].
  rewrite (put_get n q _ t n E (edit_sort ms b q)), name_eqb_refl. apply thing_ext; [rewrite !put_bare; reflexivity|].
  assert (E1 : get_part n (put_part n (edit_at ms b q) t) = Some (edit_at ms b q)) by (rewrite (put_get n q _ t n E (edit_sort ms b q)), name_eqb_refl; reflexivity).
  rewrite (put_parts n _ _ _ E1 (edit_sort ns a _)), (put_parts n q _ t E (edit_sort ms b q)), replace_replace. symmetry. apply (put_parts n q); [exact E|].
  rewrite !edit_sort. reflexivity.
Qed.
Lemma edit_apart n m ns ms a b t : n <> m -> edit_at (n :: ns) a (edit_at (m :: ms) b t) = edit_at (m :: ms) b (edit_at (n :: ns) a t).
Proof.
  intros D. cbn [edit_at]. pose proof (name_eqb_neq n m D) as D1. assert (D2 : name_eqb m n = false) by (apply name_eqb_neq; congruence).
  destruct (get_part n t) as [q|] eqn:E, (get_part m t) as [r|] eqn:E'.
  - rewrite (put_get m r _ t n E' (edit_sort ms b r)), D1, E, (put_get n q _ t m E (edit_sort ns a q)), D2, E'. apply thing_ext; [rewrite !put_bare; reflexivity|].
    assert (E1 : get_part n (put_part m (edit_at ms b r) t) = Some q) by (rewrite (put_get m r _ t n E' (edit_sort ms b r)), D1; exact E).
    assert (E2 : get_part m (put_part n (edit_at ns a q) t) = Some r) by (rewrite (put_get n q _ t m E (edit_sort ns a q)), D2; exact E').
    rewrite (put_parts n _ _ _ E1 (edit_sort ns a q)), (put_parts m _ _ _ E' (edit_sort ms b r)), (put_parts m _ _ _ E2 (edit_sort ms b r)), (put_parts n _ _ _ E (edit_sort ns a q)).
    apply replace_swap. exact D.
  - rewrite ?E. rewrite (put_get n q _ t m E (edit_sort ns a q)), D2, E'. reflexivity.
  - rewrite ?E'. rewrite (put_get m r _ t n E' (edit_sort ms b r)), D1, E. reflexivity.
  - rewrite ?E, ?E'. reflexivity.
Qed.
Lemma edit_forked ns ms a b : forked ns ms -> forall t, edit_at ns a (edit_at ms b t) = edit_at ms b (edit_at ns a t).
Proof.
  intros Fk. induction Fk as [n m ns ms D|n ns ms Fk IH]; intros t; [apply edit_apart; exact D|]. rewrite !edit_step. destruct (get_part n t) as [q|]; [|reflexivity]. rewrite IH. reflexivity.
Qed.
(** Along a common way *)
Lemma edit_prefix (P : thing -> Prop) ks ms js ls a b c d : (forall q, P q -> edit_at ks a (edit_at ms b q) = edit_at js c (edit_at ls d q)) ->
  forall ns t, (forall q, follow ns t = Some q -> P q) -> edit_at (ns ++ ks) a (edit_at (ns ++ ms) b t) = edit_at (ns ++ js) c (edit_at (ns ++ ls) d t).
Proof.
  intros H. induction ns as [|n ns IH]; intros t Hp; cbn [app]; [apply H, Hp; reflexivity|]. rewrite !edit_step. destruct (get_part n t) as [q|] eqn:E; [|reflexivity]. rewrite IH; [reflexivity|].
  intros r Hr. apply Hp. cbn [follow]. rewrite E. exact Hr.
Qed.

(** ** A call on an object and a getter of it *)

Definition apart_from (n : name) (c : change thing) : Prop :=
  match c with
  | Sets l => ~ In n (map fst l)
  | Entries o => match o with OPut k _ | OPutIfNotNil k (Some _) | OReplaceOrPut k _ | OReplaceIfExists k _ | ODelete k => k <> n | _ => True end
  end.
Lemma get_other_filter {A} n k (l : list (name * A)) : k <> n -> sget name_eqb n (filter (other name_eqb k) l) = sget name_eqb n l.
Proof.
  intros D. unfold sget. induction l as [|[m x] l IH]; [reflexivity|]. cbn [filter find]. unfold other at 1. cbn [fst]. destruct (name_eqb m k) eqn:E; cbn [negb].
  - apply name_eqb_eq in E. subst m. rewrite (name_eqb_neq k n D). exact IH.
  - cbn [find fst]. destruct (name_eqb m n); [reflexivity|exact IH].
Qed.
Lemma get_app {A} n (l l' : list (name * A)) : sget name_eqb n (l ++ l') = match sget name_eqb n l with Some x => Some x | None => sget name_eqb n l' end.
Proof. unfold sget. induction l as [|[m x] l IH]; [reflexivity|]. cbn [app find fst]. destruct (name_eqb m n); [reflexivity|exact IH]. Qed.
Lemma get_put_other {A} n k (v : A) l : k <> n -> sget name_eqb n (sput name_eqb k v l) = sget name_eqb n l.
Proof.
  intros D. unfold sput. rewrite get_app. unfold sdelete. rewrite (get_other_filter n k l D). destruct (sget name_eqb n l); [reflexivity|].
  unfold sget. cbn [find fst]. rewrite (name_eqb_neq k n D). reflexivity.
Qed.

(** ** Maps *)

Section Maps.
  Context {K V : Type}.
  Variable keq : K -> K -> bool.
  Hypothesis keq_sym : forall a b, keq a b = keq b a.
  Hypothesis keq_trans : forall a b c, keq a b = true -> keq b c = true -> keq a c = true.

  Definition eff (o : op K V) (l : list (K * V)) : list (K * V) := match sstep keq l o with Some (l, _) => l | None => l end.
  Lemma eff_look o l : op_adds o = false -> (forall k v, o <> OReplaceIfExists k v) -> (forall k, o <> ODelete k) -> eff o l = l.
  Proof.
    unfold eff. destruct o as [k v|k [v|]|k v|k v|k|b|k|k|k| |j|k| ]; cbn [op_adds sstep]; intros A R D; try discriminate; try reflexivity; try (exfalso; eapply R; reflexivity); try (exfalso; eapply D; reflexivity).
    destruct (sat j l); reflexivity.
  Qed.

  Lemma other_pair k x (y : V) : other keq k (x, y) = negb (keq x k).
  Proof. reflexivity. Qed.
  Lemma keys_part a b e : keq a b = false -> keq e a = true -> keq e b = false.
  Proof. intros D E. destruct (keq e b) eqn:E'; [|reflexivity]. rewrite keq_sym in E. rewrite (keq_trans _ _ _ E E') in D. discriminate. Qed.

  Lemma delete_replace k j (w : V) l : sdelete keq k (sreplace keq j w l) = sreplace keq j w (sdelete keq k l).
  Proof.
    unfold sdelete, sreplace. induction l as [|[x y] l IH]; [reflexivity|]. cbn [map filter]. destruct (keq x j) eqn:E; cbn [fst]; rewrite ?E, ?other_pair;
      destruct (keq x k) eqn:E'; cbn [negb]; rewrite IH; cbn [map fst]; rewrite ?E; reflexivity.
  Qed.
  Lemma has_replace k j (w : V) l : shas keq k (sreplace keq j w l) = shas keq k l.
  Proof. unfold shas, sreplace. induction l as [|[x y] l IH]; [reflexivity|]. cbn [map existsb fst]. rewrite IH. destruct (keq x j); reflexivity. Qed.
  Lemma has_delete k j (l : list (K * V)) : keq k j = false -> shas keq k (sdelete keq j l) = shas keq k l.
  Proof.
    intros D. unfold shas, sdelete. induction l as [|[x y] l IH]; [reflexivity|]. cbn [filter existsb fst]. rewrite other_pair. destruct (keq x j) eqn:E; cbn [negb].
    - rewrite keq_sym in D. rewrite (keys_part j k x D E). exact IH.
    - cbn [existsb fst]. rewrite IH. reflexivity.
  Qed.
  Lemma replaces_swap k j (v w : V) l : keq k j = false -> sreplace keq k v (sreplace keq j w l) = sreplace keq j w (sreplace keq k v l).
  Proof.
    intros D. unfold sreplace. rewrite !map_map. apply map_ext. intros [x y]. cbn [fst]. destruct (keq x j) eqn:E, (keq x k) eqn:E'; cbn [fst]; rewrite ?E, ?E'; try reflexivity.
    rewrite (keys_part k j x D E') in E. discriminate.
  Qed.
  Lemma deletes_swap k j (l : list (K * V)) : sdelete keq k (sdelete keq j l) = sdelete keq j (sdelete keq k l).
  Proof.
    unfold sdelete. induction l as [|[x y] l IH]; [reflexivity|]. cbn [filter]. destruct (other keq j (x, y)) eqn:E, (other keq k (x, y)) eqn:E'; cbn [filter]; rewrite ?E, ?E', IH; reflexivity.
  Qed.
  Lemma replace_app j (w : V) l l' : sreplace keq j w (l ++ l') = sreplace keq j w l ++ sreplace keq j w l'.
  Proof. apply map_app. Qed.
  Lemma delete_app j (l l' : list (K * V)) : sdelete keq j (l ++ l') = sdelete keq j l ++ sdelete keq j l'.
  Proof. apply filter_app. Qed.
  Lemma put_replace k j (v w : V) l : keq k j = false -> sput keq k v (sreplace keq j w l) = sreplace keq j w (sput keq k v l).
  Proof. intros D. unfold sput. rewrite delete_replace, replace_app. f_equal. cbn. rewrite D. reflexivity. Qed.
  Lemma put_delete k j (v : V) l : keq k j = false -> sput keq k v (sdelete keq j l) = sdelete keq j (sput keq k v l).
  Proof. intros D. unfold sput. rewrite deletes_swap, delete_app. f_equal. unfold sdelete, other. cbn. rewrite D. reflexivity. Qed.

  Lemma eff_replace o k (v : V) l : (forall x w, o = OPut x w \/ o = OPutIfNotNil x (Some w) \/ o = OReplaceOrPut x w \/ o = OReplaceIfExists x w -> keq x k = false) ->
    eff o (sreplace keq k v l) = sreplace keq k v (eff o l).
  Proof.
    intros D. unfold eff. destruct o as [x w|x [w|]|x w|x w|x|b|x|x|x| |j|x| ]; cbn [sstep]; try reflexivity.
    - apply put_replace. apply (D x w). tauto.
    - apply put_replace. apply (D x w). tauto.
    - rewrite has_replace. assert (E : keq x k = false) by (apply (D x w); tauto). destruct (shas keq x l); [apply replaces_swap|apply put_replace]; exact E.
    - apply replaces_swap. apply (D x w). tauto.
    - apply delete_replace.
    - destruct (sat j (sreplace keq k v l)), (sat j l); reflexivity.
  Qed.
  Lemma eff_delete o k l : (forall x w, o = OPut x w \/ o = OPutIfNotNil x (Some w) \/ o = OReplaceOrPut x w -> keq x k = false) -> eff o (sdelete keq k l) = sdelete keq k (eff o l).
  Proof.
    intros D. unfold eff. destruct o as [x w|x [w|]|x w|x w|x|b|x|x|x| |j|x| ]; cbn [sstep]; try reflexivity.
    - apply put_delete. apply (D x w). tauto.
    - apply put_delete. apply (D x w). tauto.
    - assert (E : keq x k = false) by (apply (D x w); tauto). rewrite (has_delete x k l E). destruct (shas keq x l); [symmetry; apply delete_replace|apply put_delete; exact E].
    - symmetry. apply delete_replace.
    - apply deletes_swap.
    - destruct (sat j (sdelete keq k l)), (sat j l); reflexivity.
  Qed.

  (** Unlike keys, for the calls that have one *)
  Definition op_key (o : op K V) : option K :=
    match o with OPut k _ | OPutIfNotNil k (Some _) | OReplaceOrPut k _ | OReplaceIfExists k _ | ODelete k => Some k | _ => None end.
  Definition keys_unlike (o o' : op K V) : Prop := match op_key o, op_key o' with Some k, Some k' => keq k k' = false | _, _ => True end.
  Lemma eff_swap_half o o' l : keys_unlike o o' -> op_adds o' = false -> eff o (eff o' l) = eff o' (eff o l).
  Proof.
    intros D A. destruct o' as [x w|x [w|]|x w|x w|x|b|x|x|x| |j|x| ]; try discriminate A;
      try (rewrite !(eff_look (OPutIfNotNil x None)); [reflexivity|reflexivity|discriminate|discriminate|reflexivity|discriminate|discriminate]);
      try (rewrite !eff_look; [reflexivity|reflexivity|discriminate|discriminate|reflexivity|discriminate|discriminate]);
      try reflexivity.
    - apply eff_replace. intros y z H. destruct H as [->|[->|[->| ->]]]; exact D.
    - apply eff_delete. intros y z H. destruct H as [->|[->| ->]]; exact D.
    - assert (X : forall l, eff (OAt j) l = l) by (intros l0; apply eff_look; [reflexivity|discriminate|discriminate]). rewrite !X. reflexivity.
  Qed.
  Lemma eff_swap o o' l : keys_unlike o o' -> op_adds o && op_adds o' = false -> eff o (eff o' l) = eff o' (eff o l).
  Proof.
    intros D A. apply andb_false_iff in A as [A|A]; [|apply eff_swap_half; assumption]. symmetry. apply eff_swap_half; [|exact A].
    unfold keys_unlike in *. destruct (op_key o), (op_key o'); try exact I. rewrite keq_sym. exact D.
  Qed.
  Lemma map_swap o o' (m : amap K V) : keys_unlike o o' -> op_adds o && op_adds o' = false -> (forall b b', o = OSerializeOrdered b -> o' <> OSerializeOrdered b') ->
    map_edit keq o (map_edit keq o' m) = map_edit keq o' (map_edit keq o m).
  Proof.
    intros D A Fm. pose proof (eff_swap o o' (ents m) D A) as E. unfold eff in E. unfold map_edit. cbn [ents oord]. f_equal.
    - destruct (sstep keq (ents m) o') as [[l r]|] eqn:E1, (sstep keq (ents m) o) as [[l' r']|] eqn:E2; cbn [ents]; rewrite ?E1, ?E2 in *; exact E.
    - destruct o, o'; try reflexivity. exfalso. eapply Fm; reflexivity.
  Qed.

  (** ** Twice *)
  Lemma delete_delete k (l : list (K * V)) : sdelete keq k (sdelete keq k l) = sdelete keq k l.
  Proof. unfold sdelete. induction l as [|e l IH]; [reflexivity|]. cbn [filter]. destruct (other keq k e) eqn:E; cbn [filter]; rewrite ?E, IH; reflexivity. Qed.
  Lemma replaces_again k (v w : V) l : sreplace keq k v (sreplace keq k w l) = sreplace keq k v l.
  Proof. unfold sreplace. rewrite map_map. apply map_ext. intros [x y]. cbn [fst]. destruct (keq x k) eqn:E; cbn [fst]; rewrite E; reflexivity. Qed.
  Lemma delete_replaced k (w : V) l : sdelete keq k (sreplace keq k w l) = sdelete keq k l.
  Proof.
    unfold sdelete, sreplace. induction l as [|[x y] l IH]; [reflexivity|]. cbn [map filter fst]. rewrite other_pair. destruct (keq x k) eqn:E; cbn [fst]; rewrite other_pair, E; cbn [negb]; rewrite IH; reflexivity.
  Qed.
  Lemma delete_put k (w : V) l : keq k k = true -> sdelete keq k (sput keq k w l) = sdelete keq k l.
  Proof. intros E. unfold sput. rewrite delete_app, delete_delete. unfold sdelete at 2. unfold other. cbn. rewrite E. apply app_nil_r. Qed.
  Lemma replace_put k (v w : V) l : keq k k = true -> sreplace keq k v (sput keq k w l) = sput keq k v l.
  Proof.
    intros E. unfold sput. rewrite replace_app. cbn. rewrite E. f_equal. unfold sreplace, sdelete. induction l as [|[x y] l IH]; [reflexivity|]. cbn [filter]. rewrite !other_pair.
    destruct (keq x k) eqn:E1; cbn [negb]; [exact IH|]. cbn [map fst]. rewrite E1, IH. reflexivity.
  Qed.
  Lemma put_put k (v w : V) l : keq k k = true -> sput keq k v (sput keq k w l) = sput keq k v l.
  Proof. intros E. unfold sput at 1. rewrite (delete_put k w l E). reflexivity. Qed.
  Lemma has_put k (v : V) l : keq k k = true -> shas keq k (sput keq k v l) = true.
  Proof. intros E. unfold shas, sput. rewrite existsb_app. cbn. rewrite E, orb_true_r. reflexivity. Qed.

  Lemma eff_twice o l : (forall k, op_key o = Some k -> keq k k = true) -> eff o (eff o l) = eff o l.
  Proof.
    intros D. unfold eff. destruct o as [x w|x [w|]|x w|x w|x|b|x|x|x| |j|x| ]; cbn [sstep op_key] in *; try reflexivity; try specialize (D x eq_refl).
    - apply put_put. exact D.
    - apply put_put. exact D.
    - destruct (shas keq x l) eqn:H; [rewrite has_replace, H; apply replaces_again|]. rewrite (has_put x w l D). apply replace_put. exact D.
    - apply replaces_again.
    - apply delete_delete.
    - destruct (sat j l) eqn:E; [rewrite E|]; [reflexivity|]. rewrite E. reflexivity.
  Qed.
  Lemma map_twice o (m : amap K V) : (forall k, op_key o = Some k -> keq k k = true) -> map_edit keq o (map_edit keq o m) = map_edit keq o m.
  Proof.
    intros D. pose proof (eff_twice o (ents m) D) as E. unfold eff in E. unfold map_edit. cbn [ents oord]. f_equal.
    - destruct (sstep keq (ents m) o) as [[l r]|] eqn:E1; cbn [ents]; rewrite ?E1 in *; exact E.
    - destruct o; reflexivity.
  Qed.

  (** ** Once and for all *)
  Lemma eff_final o o' l : op_final o = true -> op_key o' = op_key o -> (forall k, op_key o = Some k -> keq k k = true) -> eff o (eff o' l) = eff o l.
  Proof.
    intros Fo E D.
    assert (X : forall x, op_key o' = Some x -> keq x x = true -> sdelete keq x (eff o' l) = sdelete keq x l).
    { intros x Ex Kx. unfold eff. destruct o' as [y w|y [w|]|y w|y w|y|b|y|y|y| |j|y| ]; try discriminate Ex; injection Ex as ->; cbn [sstep].
      - apply delete_put. exact Kx.
      - apply delete_put. exact Kx.
      - destruct (shas keq x l); [apply delete_replaced|apply delete_put; exact Kx].
      - apply delete_replaced.
      - apply delete_delete. }
    destruct o as [x w|x [w|]|x w|x w|x|b|x|x|x| |j|x| ]; try discriminate Fo; cbn [op_key] in *; try specialize (D x eq_refl); unfold eff at 1 3; cbn [sstep].
    - unfold sput. rewrite (X x E D). reflexivity.
    - unfold sput. rewrite (X x E D). reflexivity.
    - exact (X x E D).
    - destruct o' as [y w|y [w|]|y w|y w|y|b0|y|y|y| |j|y| ]; try discriminate E; try reflexivity. unfold eff. cbn [sstep]. destruct (sat j l); reflexivity.
  Qed.
End Maps.

(** ** A call and what leads on from its object *)

Lemma name_eqb_sym a b : name_eqb a b = name_eqb b a.
Proof.
  destruct (name_eqb a b) eqn:E; [apply name_eqb_eq in E; subst; symmetry; apply name_eqb_refl|]. destruct (name_eqb b a) eqn:E'; [|reflexivity]. apply name_eqb_eq in E'. subst.
  rewrite name_eqb_refl in E. discriminate.
Qed.
Lemma name_eqb_trans a b c : name_eqb a b = true -> name_eqb b c = true -> name_eqb a c = true.
Proof. intros A B. apply name_eqb_eq in A. apply name_eqb_eq in B. subst. apply name_eqb_refl. Qed.

Lemma sget_replace_other {A} n k (v : A) l : k <> n -> sget name_eqb n (sreplace name_eqb k v l) = sget name_eqb n l.
Proof. intros D. rewrite get_replace, name_eqb_neq by congruence. reflexivity. Qed.
Lemma apart_get n c (ps : list (name * option thing)) : apart_from n c -> sget name_eqb n (change_ptrs c ps) = sget name_eqb n ps.
Proof.
  destruct c as [l|o]; cbn [apart_from change_ptrs].
  - revert ps. induction l as [|[m w] l IH]; intros ps H; [reflexivity|]. cbn [fold_left fst snd map] in *. rewrite IH; [|intros X; apply H; right; exact X]. apply sget_replace_other. intros ->. apply H. left. reflexivity.
  - destruct o as [x w|x [w|]|x w|x w|x|b|x|x|x| |j|x| ]; cbn [sstep]; intros D; try reflexivity.
    + apply get_put_other. exact D.
    + apply get_put_other. exact D.
    + destruct (shas name_eqb x ps); [apply sget_replace_other|apply get_put_other]; exact D.
    + apply sget_replace_other. exact D.
    + apply get_other_filter. exact D.
    + destruct (sat j ps); reflexivity.
Qed.
Lemma apart_put n c q (ps : list (name * option thing)) : apart_from n c -> sreplace name_eqb n q (change_ptrs c ps) = change_ptrs c (sreplace name_eqb n q ps).
Proof.
  destruct c as [l|o]; cbn [apart_from change_ptrs].
  - revert ps. induction l as [|[m w] l IH]; intros ps H; [reflexivity|]. cbn [fold_left fst snd map] in *. rewrite IH; [|intros X; apply H; right; exact X]. rewrite (replace_swap n m); [reflexivity|]. intros ->. apply H. left. reflexivity.
  - intros D. symmetry. apply (eff_replace name_eqb name_eqb_sym name_eqb_trans). intros x w H. apply name_eqb_neq. destruct H as [->|[->|[->| ->]]]; exact D.
Qed.
Lemma beside n ks a b t : apart_from n (change_of b) -> edit_at (n :: ks) a (act_on b t) = act_on b (edit_at (n :: ks) a t).
Proof.
  intros Ap. destruct (fits b t) eqn:F.
  - assert (G : get_part n (act_on b t) = get_part n t) by (unfold get_part; rewrite (act_parts b t F), (apart_get n _ _ Ap); reflexivity).
    cbn [edit_at]. rewrite G. destruct (get_part n t) as [q|] eqn:E; [|reflexivity]. set (r := edit_at ks a q).
    assert (Sr : sort r = sort q) by apply edit_sort.
    assert (F' : fits b (put_part n r t) = true) by (rewrite <- fits_bare, put_bare, fits_bare; exact F).
    apply thing_ext.
    + rewrite put_bare, (act_bare b _ F'), put_bare. apply act_bare. exact F.
    + rewrite (put_parts n q r _ G Sr), (act_parts b t F), (act_parts b _ F'), (put_parts n q r t E Sr). apply apart_put. exact Ap.
  - rewrite (not_fits b t F). symmetry. apply not_fits. cbn [edit_at]. destruct (get_part n t); [|exact F]. rewrite <- fits_bare, put_bare, fits_bare. exact F.
Qed.

Lemma op_apart {V} (f : V -> thing) (o : op string V) n : unlike (map_topic KStr o) (name_topic n) -> apart_from n (Entries (op_names f o)).
Proof.
  destruct o as [x w|x [w|]|x w|x w|x|b|x|x|x| |j|x| ]; cbn [map_topic op_names apart_from]; intros U; try exact I;
    intros <-; cbn [name_topic unlike gkey_eqb] in U; rewrite String.eqb_refl in U; discriminate U.
Qed.
Lemma topic_apart b n : unlike (topic_of b) (name_topic n) -> apart_from n (change_of b).
Proof.
  destruct b as [op|op|op|op|op|op|o|o|o|o|o|o|o]; cbn [topic_of change_of]; try (intros _ []); try apply op_apart.
  - destruct op; cbn; intros U X; first [contradiction X | destruct X as [X|X]; [subst n; apply U; reflexivity|contradiction X]].
  - destruct op; cbn; intros U X; first [contradiction X | destruct X as [X|X]; [subst n; apply U; reflexivity|contradiction X]].
  - destruct op; cbn; intros U X; first [contradiction X | destruct X as [X|X]; [subst n; apply U; reflexivity|contradiction X]].
  - destruct op; cbn; intros U X; first [contradiction X | destruct X as [X|X]; [subst n; apply U; reflexivity|contradiction X]].
Qed.

(** ** Two calls on one object *)

Ltac two_calls op op' U := destruct op; try reflexivity; destruct op'; try reflexivity; exfalso; apply U; reflexivity.
Lemma api_swap op op' a : api_topic op <> api_topic op' -> api_apply op (api_apply op' a) = api_apply op' (api_apply op a).
Proof. intros U. two_calls op op' U. Qed.
Lemma lib_swap op op' l : lib_topic op <> lib_topic op' -> lib_apply op (lib_apply op' l) = lib_apply op' (lib_apply op l).
Proof. intros U. two_calls op op' U. Qed.
Lemma ex_swap op op' e : ex_topic op <> ex_topic op' -> ex_apply op (ex_apply op' e) = ex_apply op' (ex_apply op e).
Proof. intros U. two_calls op op' U. Qed.
Lemma xml_swap op op' x : xml_topic op <> xml_topic op' -> xml_apply op (xml_apply op' x) = xml_apply op' (xml_apply op x).
Proof. intros U. two_calls op op' U. Qed.
Lemma doc_swap op op' d : doc_topic op <> doc_topic op' -> doc_apply op (doc_apply op' d) = doc_apply op' (doc_apply op d).
Proof. intros U. two_calls op op' U. Qed.
Lemma base_swap op op' b : type_topic op <> type_topic op' -> base_apply op (base_apply op' b) = base_apply op' (base_apply op b).
Proof. intros U. two_calls op op' U. Qed.
Lemma ext_swap op op' x : type_topic op <> type_topic op' -> ext_apply op (ext_apply op' x) = ext_apply op' (ext_apply op x).
Proof. intros U. two_calls op op' U. Qed.
Lemma facets_swap op op' fs : type_topic op <> type_topic op' -> facets_apply op (facets_apply op' fs) = facets_apply op' (facets_apply op fs).
Proof. intros U. two_calls op op' U. Qed.
Lemma common_swap op op' c : type_topic op <> type_topic op' -> common_apply op (common_apply op' c) = common_apply op' (common_apply op c).
Proof. intros U. two_calls op op' U. Qed.
Lemma spec_swap op op' s : type_topic op <> type_topic op' -> spec_apply op (spec_apply op' s) = spec_apply op' (spec_apply op s).
Proof. intros U. destruct s; two_calls op op' U. Qed.
Lemma type_swap op op' d : type_topic op <> type_topic op' -> type_apply op (type_apply op' d) = type_apply op' (type_apply op d).
Proof. intros U. destruct d as [b|b x fs c s]; [reflexivity|]. cbn [type_apply]. rewrite base_swap, ext_swap, facets_swap, common_swap, spec_swap by exact U. reflexivity. Qed.

Lemma str_trans a b c : String.eqb a b = true -> String.eqb b c = true -> String.eqb a c = true.
Proof. intros A B. apply String.eqb_eq in A. apply String.eqb_eq in B. subst. apply String.eqb_refl. Qed.
Lemma str_swap {V} (o o' : op string V) m : unlike (map_topic KStr o) (map_topic KStr o') -> op_adds o && op_adds o' = false ->
  map_edit String.eqb o (map_edit String.eqb o' m) = map_edit String.eqb o' (map_edit String.eqb o m).
Proof.
  intros U A. apply (map_swap String.eqb String.eqb_sym str_trans o o' m); [|exact A|].
  - unfold keys_unlike. destruct o as [x w|x [w|]|x w|x w|x|b|x|x|x| |j|x| ]; try exact I; destruct o' as [y z|y [z|]|y z|y z|y|b'|y|y|y| |j'|y| ]; try exact I; exact U.
  - intros b b' -> ->. exact U.
Qed.
Lemma extra_swap {V} (o o' : op gkey V) m : unlike (map_topic (fun k => k) o) (map_topic (fun k => k) o') -> op_adds o && op_adds o' = false ->
  map_edit gkey_eqb o (map_edit gkey_eqb o' m) = map_edit gkey_eqb o' (map_edit gkey_eqb o m).
Proof.
  intros U A. apply (map_swap gkey_eqb gkey_eqb_sym gkey_eqb_trans o o' m); [|exact A|].
  - unfold keys_unlike. destruct o as [x w|x [w|]|x w|x w|x|b|x|x|x| |j|x| ]; try exact I; destruct o' as [y z|y [z|]|y z|y z|y|b'|y|y|y| |j'|y| ]; try exact I; exact U.
  - intros b b' -> ->. exact U.
Qed.
Lemma act_swap a b t : unlike (topic_of a) (topic_of b) -> adds a && adds b = false -> act_on a (act_on b t) = act_on b (act_on a t).
Proof.
  intros U A. destruct t as [p|l|d|e|x|d|l|m|m|m|m|m|m|m]; destruct a as [op|op|op|op|op|op|o|o|o|o|o|o|o]; try reflexivity;
    destruct b as [op'|op'|op'|op'|op'|op'|o'|o'|o'|o'|o'|o'|o']; try reflexivity; cbn [topic_of unlike adds act_on] in *; f_equal.
  - apply api_swap. exact U.
  - apply lib_swap. exact U.
  - apply type_swap. exact U.
  - apply ex_swap. exact U.
  - apply xml_swap. exact U.
  - apply doc_swap. exact U.
  - apply str_swap; assumption.
  - apply str_swap; assumption.
  - apply str_swap; assumption.
  - apply str_swap; assumption.
  - apply str_swap; assumption.
  - apply str_swap; assumption.
  - apply extra_swap; assumption.
Qed.

(** ** C84 *)
Lemma edit_below ns n ks a b t : unlike (topic_of b) (name_topic n) -> edit_at (ns ++ n :: ks) a (edit_at ns b t) = edit_at ns b (edit_at (ns ++ n :: ks) a t).
Proof.
  intros U. rewrite <- (app_nil_r ns) at 2 3. apply (edit_prefix (fun _ => True)); [|intros; exact I]. intros q _. apply beside, topic_apart, U.
Qed.
Lemma edit_swap ns a ms b : separate ns a ms b -> forall t, edit_at ns a (edit_at ms b t) = edit_at ms b (edit_at ns a t).
Proof.
  intros S t. destruct S as [ns a ms b Fk|ns a b U A|ns n ks a b U|ns a n ks b U].
  - apply edit_forked. exact Fk.
  - rewrite <- (app_nil_r ns). apply (edit_prefix (fun _ => True)); [|intros; exact I]. intros q _. apply act_swap; assumption.
  - apply edit_below. exact U.
  - symmetry. apply edit_below. exact U.
Qed.

(** ** Twice *)
Lemma type_twice op d : type_apply op (type_apply op d) = type_apply op d.
Proof.
  destruct d as [b|b x fs c s]; [reflexivity|]. cbn [type_apply]. f_equal.
  - destruct op; reflexivity.
  - destruct op; reflexivity.
  - destruct op; reflexivity.
  - destruct op; reflexivity.
  - destruct s; destruct op; reflexivity.
Qed.
Lemma str_key {V} (o : op string V) k : op_key o = Some k -> String.eqb k k = true.
Proof. intros _. apply String.eqb_refl. Qed.
Lemma act_twice a t : own_key a -> act_on a (act_on a t) = act_on a t.
Proof.
  intros O. destruct t as [p|l|d|e|x|d|l|m|m|m|m|m|m|m]; destruct a as [op|op|op|op|op|op|o|o|o|o|o|o|o]; try reflexivity; cbn [act_on]; f_equal;
    try (destruct op; reflexivity); try (apply type_twice); try (apply (map_twice String.eqb); exact (str_key o)).
  apply (map_twice gkey_eqb). unfold own_key in O. cbn [topic_of] in O. intros k E. destruct o as [x w|x [w|]|x w|x w|x|b|x|x|x| |j|x| ]; try discriminate E; injection E as ->; exact O.
Qed.
Lemma edit_twice ns a t : own_key a -> edit_at ns a (edit_at ns a t) = edit_at ns a t.
Proof.
  intros O. revert t. induction ns as [|n ns IH]; intros t; [apply act_twice; exact O|]. rewrite edit_step. cbn [edit_at]. destruct (get_part n t) as [q|]; [|reflexivity]. rewrite IH. reflexivity.
Qed.

(** ** Calls made void *)

Lemma map_final {K V} (keq : K -> K -> bool) (o o' : op K V) (m : amap K V) : op_final o = true -> op_key o' = op_key o -> (forall k, op_key o = Some k -> keq k k = true) ->
  (match o with OSerializeOrdered _ => True | _ => forall b, o' <> OSerializeOrdered b end) -> map_edit keq o (map_edit keq o' m) = map_edit keq o m.
Proof.
  intros Fo E D Fm. pose proof (eff_final keq o o' (ents m) Fo E D) as X. unfold eff in X. unfold map_edit. cbn [ents oord]. f_equal.
  - destruct (sstep keq (ents m) o') as [[l r]|] eqn:E1; cbn [ents]; exact X.
  - destruct o as [x w|x [w|]|x w|x w|x|b|x|x|x| |j|x| ]; try reflexivity; destruct o'; try reflexivity; exfalso; eapply Fm; reflexivity.
Qed.
Lemma topic_key {K V} (key : K -> gkey) (o o' : op K V) : (forall x y, key x = key y -> x = y) -> map_topic key o' = map_topic key o -> op_key o' = op_key o.
Proof.
  intros I. destruct o as [x w|x [w|]|x w|x w|x|b|x|x|x| |j|x| ]; destruct o' as [y z|y [z|]|y z|y z|y|b'|y|y|y| |j'|y| ]; cbn [map_topic op_key]; intros E; try discriminate E; try reflexivity;
    injection E as E; rewrite (I _ _ E); reflexivity.
Qed.
Lemma topic_form {K V} (key : K -> gkey) (o o' : op K V) : op_final o = true -> map_topic key o' = map_topic key o -> match o with OSerializeOrdered _ => True | _ => forall b, o' <> OSerializeOrdered b end.
Proof. intros Fo E. destruct o as [x w|x [w|]|x w|x w|x|b|x|x|x| |j|x| ]; try discriminate Fo; try exact I; intros b' ->; discriminate E. Qed.
Lemma str_final {V} (o o' : op string V) m : op_final o = true -> map_topic KStr o' = map_topic KStr o -> map_edit String.eqb o (map_edit String.eqb o' m) = map_edit String.eqb o m.
Proof.
  intros Fo E. apply map_final; [exact Fo|apply (topic_key KStr); [intros x y X; injection X; auto|exact E]|intros; apply String.eqb_refl|apply (topic_form KStr); assumption].
Qed.

Ltac voided op op' E := destruct op; try reflexivity; destruct op'; try reflexivity; discriminate E.
Lemma type_void op op' d : Fields.shaped d -> has_setter (d_kind d) op = true -> type_topic op' = type_topic op -> type_apply op (type_apply op' d) = type_apply op d.
Proof.
  intros S H E. destruct d as [b|b x fs c s]; [reflexivity|]. cbn [type_apply]. f_equal.
  - voided op op' E.
  - voided op op' E.
  - voided op op' E.
  - voided op op' E.
  - unfold Fields.shaped in S. unfold d_kind in *. cbn [d_base] in *. destruct (b_kind b); destruct s; try discriminate S; clear S; destruct op; try discriminate H; try reflexivity; destruct op'; try discriminate E; reflexivity.
Qed.
Lemma act_void a b q : final a = true -> own_key a -> has_method a q -> topic_of b = topic_of a -> act_on a (act_on b q) = act_on a q.
Proof.
  intros Fa O H E. destruct q as [p|l|d|e|x|d|l|m|m|m|m|m|m|m]; destruct a as [op|op|op|op|op|op|o|o|o|o|o|o|o]; try discriminate H;
    destruct b as [op'|op'|op'|op'|op'|op'|o'|o'|o'|o'|o'|o'|o']; try reflexivity; cbn [topic_of act_on final has_method] in *; f_equal; try (apply str_final; assumption).
  - injection E as E. voided op op' E.
  - injection E as E. voided op op' E.
  - injection E as E. destruct H as [S H]. apply type_void; assumption.
  - injection E as E. voided op op' E.
  - injection E as E. voided op op' E.
  - injection E as E. voided op op' E.
  - apply map_final; [exact Fa|apply (topic_key (fun k => k)); [auto|exact E]| |apply (topic_form (fun k => k)); assumption].
    unfold own_key in O. cbn [topic_of] in O. intros k Ek. destruct o as [x w|x [w|]|x w|x w|x|b|x|x|x| |j|x| ]; try discriminate Ek; injection Ek as ->; exact O.
Qed.

Lemma sets_over n r (l : list (name * option thing)) ps : In n (map fst l) -> change_ptrs (Sets l) (sreplace name_eqb n r ps) = change_ptrs (Sets l) ps.
Proof.
  cbn [change_ptrs]. revert ps. induction l as [|[m w] l IH]; intros ps H; [destruct H|]. cbn [fold_left fst snd map] in *. destruct (name_eqb n m) eqn:E.
  - apply name_eqb_eq in E. subst m. rewrite replace_replace. reflexivity.
  - destruct H as [H|H]; [subst m; rewrite name_eqb_refl in E; discriminate E|]. rewrite (replace_swap m n) by (intros ->; rewrite name_eqb_refl in E; discriminate E). apply IH. exact H.
Qed.
Lemma entries_over {V} (f : V -> thing) (o : op string V) n r ps : op_final o = true -> name_topic n = map_topic KStr o ->
  change_ptrs (Entries (op_names f o)) (sreplace name_eqb n r ps) = change_ptrs (Entries (op_names f o)) ps.
Proof.
  intros Fo E. destruct n as [fd|k|i]; destruct o as [x w|x [w|]|x w|x w|x|b|x|x|x| |j|x| ]; try discriminate Fo; try discriminate E; injection E as ->; cbn [op_names option_map change_ptrs sstep].
  - unfold sput. rewrite delete_replaced. reflexivity.
  - unfold sput. rewrite delete_replaced. reflexivity.
  - apply delete_replaced.
Qed.
Lemma change_over a n q p r : fits a q = true -> get_part n q = Some p -> final a = true -> name_topic n = topic_of a ->
  change_ptrs (change_of a) (sreplace name_eqb n r (parts q)) = change_ptrs (change_of a) (parts q).
Proof.
  intros F G Fa E. destruct a as [op|op|op|op|op|op|o|o|o|o|o|o|o]; cbn [change_of topic_of final] in *; try (apply entries_over; assumption).
  - apply sets_over. destruct n as [f|k|i]; try discriminate E. injection E as E. destruct f; destruct op; try discriminate E; left; reflexivity.
  - apply sets_over. destruct n as [f|k|i]; try discriminate E. injection E as E. destruct f; destruct op; try discriminate E; left; reflexivity.
  - apply sets_over. destruct n as [f|k|i]; try discriminate E. injection E as E. destruct f; destruct op; try discriminate E; left; reflexivity.
  - apply sets_over. destruct n as [f|k|i]; try discriminate E. injection E as E. destruct f; destruct op; try discriminate E; left; reflexivity.
  - destruct n as [f|k|i]; try discriminate E. injection E as E. destruct f; destruct op; discriminate E.
  - destruct n as [f|k|i]; try discriminate E. injection E as E. destruct f; destruct op; discriminate E.
  - destruct q; try discriminate F. discriminate G.
  - destruct q; try discriminate F. discriminate G.
  - destruct q; try discriminate F. discriminate G.
Qed.
Lemma method_fits a q : has_method a q -> fits a q = true \/ act_on a q = q /\ exists b, q = ThDef (TBase b).
Proof.
  destruct a as [op|op|op|op|op|op|o|o|o|o|o|o|o]; try (intros H; left; exact H). destruct q as [p|l|[b|b x fs c s]|e|x|d|l|m|m|m|m|m|m|m]; cbn [has_method]; intros H; try (left; exact H).
  - right. split; [reflexivity|]. exists b. reflexivity.
  - left. reflexivity.
Qed.

Lemma over a n ks b q : final a = true -> has_method a q -> name_topic n = topic_of a -> act_on a (edit_at (n :: ks) b q) = act_on a q.
Proof.
  intros Fa H E. cbn [edit_at]. destruct (get_part n q) as [p|] eqn:G; [|reflexivity]. set (r := edit_at ks b p). assert (Sr : sort r = sort p) by apply edit_sort.
  destruct (method_fits a q H) as [F|[_ [c ->]]].
  - assert (F' : fits a (put_part n r q) = true) by (rewrite <- fits_bare, put_bare, fits_bare; exact F). apply thing_ext.
    + rewrite (act_bare a _ F'), put_bare. symmetry. apply act_bare. exact F.
    + rewrite (act_parts a _ F'), (put_parts n p r q G Sr), (act_parts a q F). apply (change_over a n q p); assumption.
  - exfalso. destruct a as [op|op|op|op|op|op|o|o|o|o|o|o|o]; cbn [has_method fits] in H; try discriminate H. destruct H as [S H]. unfold Fields.shaped in S. unfold d_kind in *. cbn [d_base] in *.
    destruct (b_kind c); try discriminate S; destruct op; discriminate H.
Qed.
Lemma edit_void a ks b : covers a ks b -> final a = true -> own_key a -> forall ns t, (forall q, follow ns t = Some q -> has_method a q) -> edit_at ns a (edit_at (ns ++ ks) b t) = edit_at ns a t.
Proof.
  intros C Fa O ns t H.
  assert (X : edit_at (ns ++ []) a (edit_at (ns ++ ks) b t) = edit_at (ns ++ []) a (edit_at (ns ++ []) a t)).
  { apply (edit_prefix (has_method a)); [|exact H]. intros q Hq. transitivity (act_on a q); [|symmetry; apply act_twice; exact O]. destruct C as [b E|n ks b E]; [apply act_void|apply over]; assumption. }
  rewrite !app_nil_r in X. rewrite X. apply edit_twice. exact O.
Qed.

(** ** Programs *)

Definition run_from (env : nat -> option thing) (us : list use) : nat -> option thing := fold_left step us env.
Lemma step_same u env env' : (forall z, env z = env' z) -> forall z, step env u z = step env' u z.
Proof.
  intros E z. destruct u as [x t|x ns a]; cbn [step]; [unfold bind_var; destruct (Nat.eqb z x); [reflexivity|apply E]|]. rewrite (E x). destruct (env' x); [|apply E].
  unfold bind_var. destruct (Nat.eqb z x); [reflexivity|apply E].
Qed.
Lemma run_same us : forall env env', (forall z, env z = env' z) -> forall z, run_from env us z = run_from env' us z.
Proof. unfold run_from. induction us as [|u us IH]; intros env env' E z; [apply E|]. cbn [fold_left]. apply IH. apply step_same. exact E. Qed.
Lemma run_app env us vs z : run_from env (us ++ vs) z = run_from (run_from env us) vs z.
Proof. unfold run_from. rewrite fold_left_app. reflexivity. Qed.
Lemma step_off u env z : z <> var_of u -> step env u z = env z.
Proof.
  intros D. apply Nat.eqb_neq in D. destruct u as [x t|x ns a]; cbn [step var_of] in *; [unfold bind_var; rewrite D; reflexivity|]. destruct (env x); [unfold bind_var; rewrite D|]; reflexivity.
Qed.
Lemma step_on u env env' : env (var_of u) = env' (var_of u) -> step env u (var_of u) = step env' u (var_of u).
Proof.
  destruct u as [x t|x ns a]; cbn [step var_of]; intros E; [unfold bind_var; rewrite Nat.eqb_refl; reflexivity|]. rewrite E. destruct (env' x) eqn:E'; [unfold bind_var; rewrite Nat.eqb_refl; reflexivity|congruence].
Qed.
Lemma steps_swap u v env z : unrelated u v -> step (step env u) v z = step (step env v) u z.
Proof.
  intros U. destruct U as [u v D|x ns a ms b S].
  - destruct (Nat.eq_dec z (var_of u)) as [->|Zu].
    + rewrite step_off by exact D. symmetry. apply step_on. apply step_off. exact D.
    + rewrite (step_off u (step env v) z Zu). destruct (Nat.eq_dec z (var_of v)) as [->|Zv]; [apply step_on; apply step_off; exact Zu|]. rewrite (step_off v _ z Zv), (step_off u _ z Zu), (step_off v _ z Zv). reflexivity.
  - cbn [step]. destruct (env x) as [t|] eqn:E; [|rewrite E; reflexivity]. unfold bind_var. rewrite !Nat.eqb_refl. destruct (Nat.eqb z x); [|reflexivity]. rewrite (edit_swap ns a ms b S). reflexivity.
Qed.
Lemma rearranged_values us us' : rearranged us us' -> forall env z, run_from env us z = run_from env us' z.
Proof.
  intros R. induction R as [us|us u v vs U|us vs ws R1 IH1 R2 IH2]; intros env z.
  - reflexivity.
  - rewrite !run_app. unfold run_from at 1 3. cbn [fold_left]. apply run_same. intros y. apply steps_swap. exact U.
  - rewrite IH1. apply IH2.
Qed.
Lemma rearranged_once us us' : rearranged us us' -> Forall once_use us -> Forall once_use us'.
Proof.
  intros R. induction R as [us|us u v vs U|us vs ws R1 IH1 R2 IH2]; intros H; [exact H| |auto]. apply Forall_app in H as [A B]. inversion B as [|? ? Bu B1]; subst. inversion B1 as [|? ? Bv B2]; subst.
  apply Forall_app. split; [exact A|]. constructor; [exact Bv|]. constructor; assumption.
Qed.
Lemma rearranged_holds us us' z t : Forall once_use us -> rearranged us us' -> (holds us z t <-> holds us' z t).
Proof.
  intros H R. rewrite (holds_values us z t H), (holds_values us' z t (rearranged_once us us' R H)). pose proof (rearranged_values us us' R (fun _ => None) z) as E. unfold run_from in E. unfold values. rewrite E. reflexivity.
Qed.

Lemma separate_sym ns a ms b : separate ns a ms b -> separate ms b ns a.
Proof.
  assert (Fs : forall ns ms, forked ns ms -> forked ms ns) by (intros xs ys Fk; induction Fk as [n m xs ys D|n xs ys Fk IH]; constructor; auto).
  assert (Us : forall x y, unlike x y -> unlike y x) by (intros [s|k| |i| ] [s'|k'| |j| ]; cbn; auto; rewrite gkey_eqb_sym; auto).
  intros S. destruct S as [ns a ms b Fk|ns a b U A|ns n ks a b U|ns a n ks b U]; [apply sep_forked; auto|apply sep_same; [auto|rewrite andb_comm; exact A]|apply sep_above; exact U|apply sep_below; exact U].
Qed.
Lemma unrelated_sym u v : unrelated u v -> unrelated v u.
Proof. intros U. destruct U as [u v D|x ns a ms b S]; [apply unrelated_vars; congruence|apply unrelated_calls, separate_sym, S]. Qed.
Lemma re_cons u us us' : rearranged us us' -> rearranged (u :: us) (u :: us').
Proof.
  intros R. induction R as [us|us a b vs U|us vs ws R1 IH1 R2 IH2]; [constructor|exact (re_swap (u :: us) a b vs U)|eapply re_more; eassumption].
Qed.
Lemma re_sym us us' : rearranged us us' -> rearranged us' us.
Proof. intros R. induction R as [us|us a b vs U|us vs ws R1 IH1 R2 IH2]; [constructor|apply re_swap, unrelated_sym, U|eapply re_more; eassumption]. Qed.
(** A use that is unrelated to what follows can be made later. *)
Lemma re_later u ws vs : Forall (unrelated u) ws -> rearranged (u :: ws ++ vs) (ws ++ u :: vs).
Proof.
  intros H. induction H as [|w ws U H IH]; [constructor|]. cbn [app]. eapply re_more; [exact (re_swap [] u w (ws ++ vs) U)|]. apply re_cons. exact IH.
Qed.
Lemma inter_first us vs ws : interleaved us vs ws -> Forall (fun u => Forall (unrelated u) vs) us -> rearranged ws (us ++ vs).
Proof.
  intros N. induction N as [|u us vs ws N IH|v us vs ws N IH]; intros H.
  - constructor.
  - inversion H as [|? ? Hu Hs]; subst. apply re_cons. apply IH. exact Hs.
  - eapply re_more; [apply re_cons, IH|].
    + eapply Forall_impl; [|exact H]. intros u Hu. inversion Hu; assumption.
    + apply re_later. eapply Forall_impl; [|exact H]. intros u Hu. inversion Hu as [|? ? Huv]; subst. apply unrelated_sym, Huv.
Qed.
Lemma inter_once us vs ws : interleaved us vs ws -> Forall once_use us -> Forall once_use vs -> Forall once_use ws.
Proof.
  intros N. induction N as [|u us vs ws N IH|v us vs ws N IH]; intros A B; [constructor| |]; [inversion A|inversion B]; subst; constructor; auto.
Qed.
Lemma inter_holds us vs ws ws' z t : Forall once_use us -> Forall once_use vs -> Forall (fun u => Forall (unrelated u) vs) us -> interleaved us vs ws -> interleaved us vs ws' -> (holds ws z t <-> holds ws' z t).
Proof.
  intros A B H N N'. apply rearranged_holds; [exact (inter_once us vs ws N A B)|]. eapply re_more; [exact (inter_first us vs ws N H)|]. apply re_sym. exact (inter_first us vs ws' N' H).
Qed.

Lemma twice_holds us vs x ns a z t : Forall once_use us -> once_act a -> Forall once_use vs -> own_key a ->
  (holds (us ++ Do x ns a :: Do x ns a :: vs) z t <-> holds (us ++ Do x ns a :: vs) z t).
Proof.
  intros A Oa B K. rewrite !holds_values.
  - unfold values. pose proof (fun e => run_app e us (Do x ns a :: Do x ns a :: vs) z) as R. pose proof (fun e => run_app e us (Do x ns a :: vs) z) as R'. unfold run_from in R, R'. rewrite R, R'.
    cbn [fold_left]. set (env := fold_left step us (fun _ => None)). pose proof (run_same vs (step (step env (Do x ns a)) (Do x ns a)) (step env (Do x ns a))) as E. unfold run_from in E. rewrite E; [reflexivity|].
    intros y. cbn [step]. destruct (env x) as [q|] eqn:Ex; [|rewrite Ex; reflexivity]. unfold bind_var. rewrite !Nat.eqb_refl. destruct (Nat.eqb y x); [|reflexivity]. rewrite edit_twice by exact K. reflexivity.
  - apply Forall_app. split; [exact A|]. constructor; assumption.
  - apply Forall_app. split; [exact A|]. constructor; [exact Oa|]. constructor; assumption.
Qed.
Lemma void_next us vs x ns a ks b z t : Forall once_use us -> once_act a -> once_act b -> Forall once_use vs -> covers a ks b -> final a = true -> own_key a ->
  (forall t q, holds us x t -> follow ns t = Some q -> has_method a q) ->
  (holds (us ++ Do x (ns ++ ks) b :: Do x ns a :: vs) z t <-> holds (us ++ Do x ns a :: vs) z t).
Proof.
  intros A Oa Ob B C Fa K Hm. rewrite !holds_values.
  - unfold values. pose proof (fun e => run_app e us (Do x (ns ++ ks) b :: Do x ns a :: vs) z) as R. pose proof (fun e => run_app e us (Do x ns a :: vs) z) as R'. unfold run_from in R, R'. rewrite R, R'.
    cbn [fold_left]. set (env := fold_left step us (fun _ => None)). pose proof (run_same vs (step (step env (Do x (ns ++ ks) b)) (Do x ns a)) (step env (Do x ns a))) as E. unfold run_from in E. rewrite E; [reflexivity|].
    intros y. cbn [step]. destruct (env x) as [q|] eqn:Ex; [|rewrite Ex; reflexivity]. unfold bind_var. rewrite !Nat.eqb_refl. destruct (Nat.eqb y x); [|reflexivity].
    rewrite (edit_void a ks b C Fa K); [reflexivity|]. intros r Hr. apply (Hm q r); [|exact Hr]. apply (holds_values us x q A). exact Ex.
  - apply Forall_app. split; [exact A|]. constructor; assumption.
  - apply Forall_app. split; [exact A|]. constructor; [exact Ob|]. constructor; assumption.
Qed.
Lemma re_app us vs vs' : rearranged vs vs' -> rearranged (us ++ vs) (us ++ vs').
Proof. intros R. induction us as [|u us IH]; [exact R|]. apply re_cons. exact IH. Qed.
Lemma void_holds us ws vs x ns a ks b z t : Forall once_use us -> Forall once_use ws -> once_act a -> once_act b -> Forall once_use vs -> covers a ks b -> final a = true -> own_key a ->
  Forall (unrelated (Do x (ns ++ ks) b)) ws -> (forall t q, holds (us ++ ws) x t -> follow ns t = Some q -> has_method a q) ->
  (holds (us ++ Do x (ns ++ ks) b :: ws ++ Do x ns a :: vs) z t <-> holds (us ++ ws ++ Do x ns a :: vs) z t).
Proof.
  intros A W Oa Ob B C Fa K U Hm. assert (X : rearranged (us ++ Do x (ns ++ ks) b :: ws ++ Do x ns a :: vs) ((us ++ ws) ++ Do x (ns ++ ks) b :: Do x ns a :: vs)) by (rewrite <- app_assoc; apply re_app, re_later, U).
  assert (O : Forall once_use (us ++ Do x (ns ++ ks) b :: ws ++ Do x ns a :: vs)) by (apply Forall_app; split; [exact A|]; constructor; [exact Ob|]; apply Forall_app; split; [exact W|]; constructor; assumption).
  rewrite (rearranged_holds _ _ z t O X).
  assert (Y := void_next (us ++ ws) vs x ns a ks b z t). rewrite Y; try assumption; [rewrite <- app_assoc; reflexivity|]. apply Forall_app. split; assumption.
Qed.
