(** MarshalJSON of the ordered maps (v0/pkg/raml/AnyMap.go:118-129 and its 20 siblings).

    With [outOrder] the entries are written as an array.  Otherwise a Go map keyed by
    fmt.Sprint(key) is filled by ranging over [index], in an order Go leaves open, and encoding/json writes
    its entries sorted by key.  The text of keys and values is left to encoding/json. *)
From Coq Require Import Permutation Sorted.
From Verif Require Import Base OMap OMapSpec OMapProofs MapFacts Keys Num.

(** ** Byte order of strings, as sort.Strings uses it *)

Definition str_le (a b : string) : bool := String.leb a b.

Lemma ascii_cmp_trans a b c x : Ascii.compare a b = x -> Ascii.compare b c = x -> Ascii.compare a c = x.
Proof.
  unfold Ascii.compare. destruct x; rewrite ?N.compare_eq_iff, ?N.compare_lt_iff, ?N.compare_gt_iff; lia.
Qed.

Lemma ascii_cmp_eq a b : Ascii.compare a b = Eq -> a = b.
Proof.
  unfold Ascii.compare. rewrite N.compare_eq_iff. intros H.
  rewrite <- (ascii_N_embedding a), <- (ascii_N_embedding b), H. reflexivity.
Qed.

Lemma ascii_cmp_refl a : Ascii.compare a a = Eq.
Proof. unfold Ascii.compare. apply N.compare_refl. Qed.

Lemma str_cmp_trans a b c : String.compare a b = Lt -> String.compare b c = Lt -> String.compare a c = Lt.
Proof.
  revert b c. induction a as [|x a IH]; intros [|y b] [|z c]; simpl; try discriminate; auto.
  destruct (Ascii.compare x y) eqn:E1; destruct (Ascii.compare y z) eqn:E2; try discriminate.
  - apply ascii_cmp_eq in E1; apply ascii_cmp_eq in E2; subst. rewrite ascii_cmp_refl. apply IH.
  - apply ascii_cmp_eq in E1; subst. rewrite E2. auto.
  - apply ascii_cmp_eq in E2; subst. rewrite E1. auto.
  - rewrite (ascii_cmp_trans x y z Lt E1 E2). auto.
Qed.

Lemma str_cmp_eq a b : String.compare a b = Eq -> a = b.
Proof. apply String.compare_eq_iff. Qed.

Lemma str_cmp_refl a : String.compare a a = Eq.
Proof. induction a as [|x a IH]; simpl; [reflexivity|]. rewrite ascii_cmp_refl. exact IH. Qed.

Lemma str_le_cases a b : str_le a b = true <-> String.compare a b = Lt \/ a = b.
Proof.
  unfold str_le, String.leb. destruct (String.compare a b) eqn:E; split; intros H; auto; try discriminate.
  - right. apply str_cmp_eq; exact E.
  - destruct H as [H|H]; [discriminate|]. subst.
    rewrite str_cmp_refl in E. discriminate.
Qed.

Lemma str_le_trans a b c : str_le a b = true -> str_le b c = true -> str_le a c = true.
Proof.
  rewrite !str_le_cases. intros [H1| ->] [H2| ->]; auto. left. eapply str_cmp_trans; eauto.
Qed.

Lemma str_le_antisym a b : str_le a b = true -> str_le b a = true -> a = b.
Proof. apply String.leb_antisym. Qed.

Lemma str_le_total a b : str_le a b = true \/ str_le b a = true.
Proof. apply String.leb_total. Qed.

(** ** The output *)

Inductive json (K V : Type) : Type :=
| JArray (l : list (K * V))
| JObject (l : list (string * V)).
Arguments JArray {K V}.
Arguments JObject {K V}.

(** sort by key *)
Fixpoint insert {V} (e : string * V) (l : list (string * V)) : list (string * V) :=
  match l with
  | [] => [e]
  | x :: t => if str_le (fst e) (fst x) then e :: l else x :: insert e t
  end.

Fixpoint sort_keys {V} (l : list (string * V)) : list (string * V) :=
  match l with
  | [] => []
  | e :: t => insert e (sort_keys t)
  end.

Section Json.
  Variables K V : Type.
  (** fmt.Sprint *)
  Variable sprint : K -> string.

  (** AnyMap.go:123-126, the loop that fills [out] *)
  Definition fill (enum : list (K * V)) : list (string * V) :=
    fold_left (fun out e => gomap_upd String.eqb (sprint (fst e)) (snd e) out) enum [].

  (** AnyMap.go:118-129 MarshalJSON; [enum] is the order in which Go enumerates [index]. *)
  Definition marshal_json (m : omap K V) (enum : list (K * V)) : json K V :=
    if outOrder m then JArray (ordered m) else JObject (sort_keys (fill enum)).

  (** Go may enumerate a map in any order. *)
  Definition enumeration (m : omap K V) (enum : list (K * V)) : Prop := Permutation enum (index m).
End Json.
Arguments fill {K V}.
Arguments marshal_json {K V}.
Arguments enumeration {K V}.

(** ** Facts *)

Section Sorting.
  Variable V : Type.
  Definition kle (a b : string * V) : Prop := str_le (fst a) (fst b) = true.

  Lemma insert_perm e (l : list (string * V)) : Permutation (insert e l) (e :: l).
  Proof.
    induction l as [|x l IH]; simpl; [auto|].
    destruct (str_le (fst e) (fst x)); [auto|].
    rewrite IH. apply perm_swap.
  Qed.

  Lemma sort_perm (l : list (string * V)) : Permutation (sort_keys l) l.
  Proof.
    induction l as [|e l IH]; simpl; [auto|]. rewrite insert_perm. auto.
  Qed.

  Lemma insert_sorted e (l : list (string * V)) : StronglySorted kle l -> StronglySorted kle (insert e l).
  Proof.
    induction 1 as [|x l Hl IH Hx]; simpl.
    - constructor; constructor.
    - destruct (str_le (fst e) (fst x)) eqn:E.
      + constructor; [constructor; auto|]. constructor; [exact E|].
        eapply Forall_impl; [|exact Hx]. intros y Hy. eapply str_le_trans; [exact E|exact Hy].
      + constructor; [exact IH|]. apply Forall_forall. intros y Hy.
        apply (Permutation_in _ (insert_perm e l)) in Hy. destruct Hy as [<-|Hy].
        * destruct (str_le_total (fst e) (fst x)); [congruence|assumption].
        * rewrite Forall_forall in Hx. apply Hx; exact Hy.
  Qed.

  Lemma sort_sorted (l : list (string * V)) : StronglySorted kle (sort_keys l).
  Proof. induction l as [|e l IH]; simpl; [constructor|apply insert_sorted; exact IH]. Qed.

  Lemma sorted_unique (l1 l2 : list (string * V)) :
    NoDup (map fst l1) -> Permutation l1 l2 ->
    StronglySorted kle l1 -> StronglySorted kle l2 -> l1 = l2.
  Proof.
    intros Hn Hp H1. revert l2 Hp. induction H1 as [|x l1 H1 IH Hx]; intros l2 Hp H2.
    - apply Permutation_nil in Hp. auto.
    - destruct H2 as [|y l2 H2 Hy].
      + apply Permutation_sym, Permutation_nil in Hp. discriminate.
      + assert (x = y) as ->.
        { assert (In x (y :: l2)) as Hix by (apply (Permutation_in x Hp); left; reflexivity).
          assert (In y (x :: l1)) as Hiy
              by (apply (Permutation_in y (Permutation_sym Hp)); left; reflexivity).
          destruct Hix as [Hix|Hix]; [auto|]. destruct Hiy as [Hiy|Hiy]; [auto|].
          rewrite Forall_forall in Hx, Hy. specialize (Hx y Hiy). specialize (Hy x Hix).
          assert (fst x = fst y) as E by (apply str_le_antisym; assumption).
          exfalso. inversion Hn as [|? ? Hn1 Hn2]; subst. apply Hn1. rewrite E. apply in_map; exact Hiy. }
        f_equal. apply IH; auto.
        * inversion Hn; assumption.
        * eapply Permutation_cons_inv; exact Hp.
  Qed.
End Sorting.

Lemma upd_fresh {V} (k : string) (v : V) out :
  ~ In k (map fst out) -> gomap_upd String.eqb k v out = out ++ [(k, v)].
Proof.
  induction out as [|[k' v'] out IH]; simpl; intros H; [reflexivity|].
  destruct (String.eqb_spec k' k) as [E|E]; [exfalso; apply H; auto|].
  rewrite IH; auto.
Qed.

Lemma fill_from {K V} (sprint : K -> string) (enum : list (K * V)) out :
  NoDup (map fst out ++ map (fun e => sprint (fst e)) enum) ->
  fold_left (fun out e => gomap_upd String.eqb (sprint (fst e)) (snd e) out) enum out
  = out ++ map (fun e => (sprint (fst e), snd e)) enum.
Proof.
  revert out. induction enum as [|e enum IH]; intros out H; simpl.
  - rewrite app_nil_r. reflexivity.
  - simpl in H. rewrite upd_fresh.
    + rewrite IH.
      * rewrite <- app_assoc. reflexivity.
      * rewrite map_app. simpl. rewrite <- app_assoc. exact H.
    + apply NoDup_remove_2 in H. intros Hin. apply H. apply in_or_app. left; exact Hin.
Qed.

Lemma fill_perm {K V} (sprint : K -> string) (enum : list (K * V)) :
  NoDup (map (fun e => sprint (fst e)) enum) ->
  fill sprint enum = map (fun e => (sprint (fst e), snd e)) enum.
Proof. intros H. unfold fill. apply (fill_from sprint enum []). exact H. Qed.

(** The index holds the same entries as the slice. *)
Lemma index_entries_str {V} (m : omap string V) : sm_reachable m -> Permutation (index m) (ordered m).
Proof.
  intros Hr. apply sm_inv in Hr.
  pose proof (uniq_nodup V (index m) (inv_iuniq _ _ _ _ _ Hr)) as Hi.
  pose proof (uniq_nodup V (ordered m) (inv_uniq _ _ _ _ _ Hr)) as Ho.
  pose proof (inv_find _ _ _ _ _ Hr) as Hf.
  assert (forall k v (l : list (string * V)), NoDup (map fst l) ->
            (In (k, v) l <-> sget String.eqb k l = Some v)) as Hg.
  { intros k v l. induction l as [|[k' v'] l IH]; simpl; intros Hn; [split; [tauto|discriminate]|].
    rewrite sget_cons. inversion Hn as [|? ? Hn1 Hn2]; subst. simpl.
    destruct (String.eqb_spec k' k) as [->|E].
    - split.
      + intros [H|H]; [injection H as ->; reflexivity|].
        exfalso. apply Hn1. apply (in_map fst) in H. exact H.
      + intros H; injection H as ->. left; reflexivity.
    - rewrite <- IH by assumption. split.
      + intros [H|H]; [injection H as -> ->; congruence|exact H].
      + auto. }
  apply NoDup_Permutation.
  - apply NoDup_map_inv with (f := fst). exact Hi.
  - apply NoDup_map_inv with (f := fst). exact Ho.
  - intros [k v]. rewrite !Hg by assumption. rewrite <- Hf, sget_gomap. reflexivity.
Qed.

Definition str_sprint (s : string) : string := s.

Lemma json_str {V} (m : omap string V) enum : sm_reachable m -> outOrder m = false ->
  enumeration m enum ->
  exists l, marshal_json str_sprint m enum = JObject l /\
            Permutation l (entries m) /\ StronglySorted (kle V) l.
Proof.
  intros Hr Ho He. unfold marshal_json. rewrite Ho. eexists. split; [reflexivity|].
  split; [|apply sort_sorted].
  rewrite sort_perm, entries_ordered. unfold enumeration in He.
  assert (NoDup (map (fun e : string * V => str_sprint (fst e)) enum)) as Hn.
  { change (NoDup (map fst enum)). eapply Permutation_NoDup; [apply Permutation_sym, Permutation_map; exact He|].
    apply uniq_nodup. apply (inv_iuniq _ _ _ _ _ (sm_inv V m Hr)). }
  rewrite (fill_perm _ _ Hn). rewrite map_ext with (g := fun e => e); [|intros [k v]; reflexivity].
  rewrite map_id, He. apply index_entries_str; exact Hr.
Qed.

(** Two maps with the same entries, whatever their histories and enumeration orders. *)
Lemma json_str_same {V} (m1 m2 : omap string V) en1 en2 :
  sm_reachable m1 -> sm_reachable m2 -> outOrder m1 = false -> outOrder m2 = false ->
  Permutation (entries m1) (entries m2) -> enumeration m1 en1 -> enumeration m2 en2 ->
  marshal_json str_sprint m1 en1 = marshal_json str_sprint m2 en2.
Proof.
  intros H1 H2 O1 O2 Hp E1 E2.
  destruct (json_str m1 en1 H1 O1 E1) as [l1 [-> [P1 S1]]].
  destruct (json_str m2 en2 H2 O2 E2) as [l2 [-> [P2 S2]]].
  f_equal. apply sorted_unique; auto.
  - eapply Permutation_NoDup; [apply Permutation_sym, Permutation_map; exact P1|].
    rewrite entries_ordered. apply uniq_nodup. apply (inv_uniq _ _ _ _ _ (sm_inv V m1 H1)).
  - rewrite P1, P2. exact Hp.
Qed.

Lemma json_ordered {K V} sprint (m : omap K V) enum : outOrder m = true ->
  marshal_json sprint m enum = JArray (entries m).
Proof. intros H. unfold marshal_json. rewrite H, entries_ordered. reflexivity. Qed.

(** ** AnyMap *)

(** fmt.Sprint of a key; the text of floats and of values without a model is a parameter. *)
Definition gkey_sprint (float_text : SpecFloat.spec_float -> string) (other_text : nat -> string)
           (k : gkey) : string :=
  match k with
  | KNil => "<nil>"
  | KBool b => print_bool b
  | KStr s => s
  | KInt z => print_int z
  | KFloat f => float_text f
  | KUnhash n => other_text n
  end.

(** Keys whose texts differ: then the enumeration order does not show. *)
Lemma json_any_same {V} (sprint : gkey -> string) (m : omap gkey V) en1 en2 :
  outOrder m = false -> NoDup (map (fun e => sprint (fst e)) (index m)) ->
  enumeration m en1 -> enumeration m en2 ->
  marshal_json sprint m en1 = marshal_json sprint m en2.
Proof.
  intros Ho Hn E1 E2. unfold marshal_json. rewrite Ho. f_equal. unfold enumeration in *.
  assert (forall en, Permutation en (index m) -> NoDup (map (fun e : gkey * V => sprint (fst e)) en)) as Hd.
  { intros en He. eapply Permutation_NoDup; [|exact Hn]. apply Permutation_map. symmetry; exact He. }
  apply sorted_unique; try apply sort_sorted.
  - eapply Permutation_NoDup; [apply Permutation_map, Permutation_sym, sort_perm|].
    rewrite fill_perm by auto. rewrite map_map. auto.
  - rewrite !sort_perm. rewrite !fill_perm by auto. apply Permutation_map. rewrite E1, E2. reflexivity.
Qed.

Lemma json_any_ok (V : Type) (sprint : gkey -> string) (m : omap gkey V) en1 en2 :
  outOrder m = false -> NoDup (map (fun e => sprint (fst e)) (index m)) ->
  enumeration m en1 -> enumeration m en2 ->
  marshal_json sprint m en1 = marshal_json sprint m en2 /\
  exists l, marshal_json sprint m en1 = JObject l /\
            Permutation l (map (fun e => (sprint (fst e), snd e)) (index m)).
Proof.
  intros Ho Hn E1 E2. split; [apply json_any_same; assumption|].
  unfold marshal_json. rewrite Ho. eexists. split; [reflexivity|].
  rewrite sort_perm, fill_perm; [apply Permutation_map; exact E1|].
  eapply Permutation_NoDup; [|exact Hn]. apply Permutation_map. symmetry; exact E1.
Qed.

Lemma json_any_counterexample float_text other_text :
  exists (m : omap gkey nat) en1 en2 l1 l2,
    am_reachable m /\ len m = 2 /\ enumeration m en1 /\ enumeration m en2 /\
    marshal_json (gkey_sprint float_text other_text) m en1 = JObject l1 /\
    marshal_json (gkey_sprint float_text other_text) m en2 = JObject l2 /\
    l1 <> l2 /\ List.length l1 = 1 /\ List.length l2 = 1.
Proof.
  exists (match am_exec new_map [OPut (KInt 1) 10; OPut (KStr "1") 20; OSerializeOrdered false] with
          | Ok m => m | _ => new_map end).
  exists [(KInt 1, 10); (KStr "1", 20)], [(KStr "1", 20); (KInt 1, 10)], [("1", 20)], [("1", 10)].
  split.
  { exists [OPut (KInt 1) 10; OPut (KStr "1") 20; OSerializeOrdered false].
    split; [repeat constructor|reflexivity]. }
  split; [reflexivity|]. split; [apply Permutation_refl|]. split; [apply perm_swap|].
  split; [reflexivity|]. split; [reflexivity|]. split; [discriminate|auto].
Qed.

Lemma any_key_counterexample :
  (exists (m : omap gkey nat) k v m', am_reachable m /\ am_put k v m = Ok m' /\
     am_has k m' = Ok false /\ len m' = S (len m)) /\
  (exists (m : omap gkey nat) k, am_reachable m /\ am_has k m = Panic /\ forall v, am_put k v m = Panic).
Proof.
  split.
  - exists new_map, (KFloat SpecFloat.S754_nan), 1. eexists.
    split; [exists []; split; [constructor|reflexivity]|]. split; [reflexivity|]. split; reflexivity.
  - exists new_map, (KUnhash 0). split; [exists []; split; [constructor|reflexivity]|].
    split; reflexivity.
Qed.
