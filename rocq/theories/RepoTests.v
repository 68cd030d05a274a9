(** The tests of the repository, pkg/raml/{StringMap,UntypedMap,AnyExampleMap,AnyMap}_test.go, as statements about the model.
    The four files are alike; the lines cited are those of StringMap_test.go.  Each statement keeps the calls and the checks of
    its test and has variables where the file has literals.  "ShouldPointTo, test" (the call returns its receiver) is built into
    the model: an operation gives the changed map. *)
From Coq Require Import Sorting.Permutation.
From Verif Require Import Base OMap OMapJson Keys Yaml Values.

Section Tests.
  Context {K V : Type} (keq : K -> K -> bool) (hashable : K -> bool).
  (** fmt.Sprint of a key, and the nodes of keys and values *)
  Variables (sprint : K -> string) (kn : K -> res node) (vn : V -> res node).

  Local Notation put_ := (put keq hashable).
  Local Notation new_ := (@new_map K V).

  (** Lines 13-25: Put *)
  Definition test_put (k : K) (v : V) : Prop :=
    exists m, put_ k v new_ = Ok m /\ len m = 1%nat /\ at_ 0 m = Ok (k, v).

  (** Lines 27-40: Delete *)
  Definition test_delete (k : K) (v : V) : Prop :=
    exists m m', put_ k v new_ = Ok m /\ len m = 1%nat /\
                 delete keq hashable k m = Ok m' /\ len m' = 0%nat.

  (** Lines 42-55: Has *)
  Definition test_has (k : K) (v : V) (other : K) : Prop :=
    exists m, put_ k v new_ = Ok m /\ len m = 1%nat /\
              has keq hashable k m = Ok true /\ has keq hashable other m = Ok false.

  (** Lines 57-93: Get and GetOpt *)
  Definition test_get (k : K) (v : V) (other : K) : Prop :=
    exists m, put_ k v new_ = Ok m /\ len m = 1%nat /\
              get keq hashable k m = Ok (Some v) /\ get keq hashable other m = Ok None.

  (** Lines 95-113: ForEach.  The callback counts its calls and notes whether it was given [k] and [v]. *)
  Definition test_for_each (k : K) (v : V) : Prop :=
    exists m, put_ k v new_ = Ok m /\ len m = 1%nat /\
              for_each (fun kk vv s => Ok ((fst s ++ [(kk, vv)])%list, snd s)) [] m = Ok ([(k, v)], m).

  (** Lines 115-133, 137-152: MarshalYAML and ToYAML of an ordered map *)
  Definition test_to_yaml_ordered (k : K) (v : V) : Prop :=
    exists m, put_ k v new_ = Ok m /\ len m = 1%nat /\
      forall a b, kn k = Ok a -> vn v = Ok b ->
      exists c d, map_to_yaml kn vn (view m) = Ok c /\ c = Seq TOMap [d] /\ is_map d = true.

  (** Lines 154-171: ToYAML of an unordered map; two children are one pair. *)
  Definition test_to_yaml_unordered (k : K) (v : V) : Prop :=
    exists m, put_ k v (serialize_ordered false new_) = Ok m /\ len m = 1%nat /\
      forall a b, kn k = Ok a -> vn v = Ok b ->
      exists c p, map_to_yaml kn vn (view m) = Ok c /\ c = Map TMap [p].

  (** test.At(j).Val is v *)
  Definition val_at (j : Z) (m : omap K V) (v : V) : Prop := exists k, at_ j m = Ok (k, v).

  (** Lines 174-196: PutIfNotNil *)
  Definition test_put_if_not_nil (k : K) (v : V) (k1 k2 : K) (x : V) : Prop :=
    exists m m1 m2 m3,
      put_if_not_nil keq hashable k (Some v) new_ = Ok m /\ len m = 1%nat /\
      put_if_not_nil keq hashable k None m = Ok m1 /\ len m1 = 1%nat /\ val_at 0 m1 v /\
      put_if_not_nil keq hashable k1 None m1 = Ok m2 /\ len m2 = 1%nat /\
      put_if_not_nil keq hashable k2 (Some x) m2 = Ok m3 /\ len m3 = 2%nat /\ val_at 1 m3 x.

  (** Lines 198-217: ReplaceIfExists *)
  Definition test_replace_if_exists (k : K) (v : V) (k1 : K) (x : V) : Prop :=
    exists m m1 m2,
      put_ k v new_ = Ok m /\ len m = 1%nat /\
      replace_if_exists keq hashable k1 x m = Ok m1 /\ len m1 = 1%nat /\ val_at 0 m1 v /\
      replace_if_exists keq hashable k x m1 = Ok m2 /\ len m2 = 1%nat /\ val_at 0 m2 x.

  (** Lines 219-238: ReplaceOrPut *)
  Definition test_replace_or_put (k : K) (v : V) (k1 : K) (x : V) : Prop :=
    exists m m1 m2,
      put_ k v new_ = Ok m /\ len m = 1%nat /\
      replace_or_put keq hashable k1 x m = Ok m1 /\ len m1 = 2%nat /\ val_at 1 m1 x /\
      replace_or_put keq hashable k x m1 = Ok m2 /\ len m2 = 2%nat /\ val_at 0 m2 x.

  (** Lines 240-272: MarshalJSON, ordered and unordered; Go's enumeration of the map is any. *)
  Definition test_json_ordered (k : K) (v : V) : Prop :=
    exists m, put_ k v new_ = Ok m /\ len m = 1%nat /\
      forall enum, enumeration m enum -> marshal_json sprint m enum = JArray [(k, v)].
  Definition test_json_unordered (k : K) (v : V) : Prop :=
    exists m, put_ k v (serialize_ordered false new_) = Ok m /\ len m = 1%nat /\
      forall enum, enumeration m enum -> marshal_json sprint m enum = JObject [(sprint k, v)].

  (** All tests of a file, for one choice of the keys and values *)
  Definition suite (k other k1 k2 : K) (v x : V) : Prop :=
    test_put k v /\ test_delete k v /\ test_has k v other /\ test_get k v other /\ test_for_each k v /\
    test_to_yaml_ordered k v /\ test_to_yaml_unordered k v /\
    test_put_if_not_nil k v k1 k2 x /\ test_replace_if_exists k v k1 x /\ test_replace_or_put k v k1 x /\
    test_json_ordered k v /\ test_json_unordered k v.

  Section Proof.
    Variables (k other k1 k2 : K) (v x : V).
    Hypotheses (Hk : hashable k = true) (Ho : hashable other = true) (H1 : hashable k1 = true) (H2 : hashable k2 = true).
    Hypotheses (Ek : keq k k = true) (Eo : keq k other = false) (E1 : keq k k1 = false) (E2 : keq k k2 = false).

    Lemma put_new b : put_ k v (serialize_ordered b new_) = Ok (mkOMap [(k, v)] [(k, v)] b).
    Proof. unfold put, delete, index_of, gomap_get, gomap_set. rewrite Hk. reflexivity. Qed.

    Lemma put_new' : put_ k v new_ = Ok (mkOMap [(k, v)] [(k, v)] true).
    Proof. exact (put_new true). Qed.

    Ltac rr := first [reflexivity | eexists; reflexivity].

    Lemma one_enum b enum : enumeration (mkOMap [(k, v)] [(k, v)] b) enum -> enum = [(k, v)].
    Proof. unfold enumeration; cbn. intros P. apply Permutation_sym, Permutation_length_1_inv in P. exact P. Qed.

    Lemma suite_holds : suite k other k1 k2 v x.
    Proof.
      unfold suite. repeat apply conj.
      - eexists. split; [apply put_new'|split; rr].
      - eexists; eexists. split; [apply put_new'|]. split; [rr|].
        unfold delete, index_of, gomap_get, gomap_delete. cbn. rewrite ?Hk. cbn. rewrite ?Ek. cbn. rewrite ?Ek. split; rr.
      - eexists. split; [apply put_new'|]. split; [rr|].
        unfold has, gomap_get. cbn. rewrite ?Hk, ?Ho. cbn. rewrite ?Ek, ?Eo. split; rr.
      - eexists. split; [apply put_new'|]. split; [rr|].
        unfold get, gomap_get. cbn. rewrite ?Hk, ?Ho. rewrite ?Ek, ?Eo. split; rr.
      - eexists. split; [apply put_new'|]. split; rr.
      - eexists. split; [apply put_new'|]. split; [rr|]. intros a b A B.
        eexists; eexists. split; [|split; [rr|]].
        + unfold map_to_yaml, entry_node. cbn. rewrite A. cbn. rewrite B. rr.
        + rr.
      - eexists. split; [apply put_new|]. split; [rr|]. intros a b A B.
        eexists; eexists. split; [|rr].
        unfold map_to_yaml, entry_node. cbn. rewrite A. cbn. rewrite B. rr.
      - do 4 eexists. split; [apply put_new'|]. split; [rr|]. split; [rr|]. split; [rr|].
        split; [rr|]. split; [rr|]. split; [rr|].
        unfold put_if_not_nil, put, delete, index_of, gomap_get, gomap_set. cbn. rewrite ?H2. cbn. rewrite ?E2. cbn. rewrite ?E2.
        split; [rr|]. split; rr.
      - do 3 eexists. split; [apply put_new'|]. split; [rr|].
        unfold replace_if_exists, index_of, gomap_get, gomap_set. cbn. rewrite ?H1. cbn. rewrite ?E1. cbn.
        split; [rr|]. split; [rr|]. split; [rr|]. cbn.
        rewrite ?Hk. cbn. rewrite ?Ek. cbn. rewrite ?Ek. split; [rr|]. split; rr.
      - do 3 eexists. split; [apply put_new'|]. split; [rr|].
        unfold replace_or_put, replace_if_exists, has, put, delete, index_of, gomap_get, gomap_set. cbn. rewrite ?H1. cbn.
        rewrite ?E1. cbn. rewrite ?E1. cbn.
        split; [rr|]. split; [rr|]. split; [rr|]. cbn.
        rewrite ?Hk. cbn. rewrite ?Ek. cbn. rewrite ?Ek. split; [rr|]. split; rr.
      - eexists. split; [apply put_new'|]. split; [rr|]. intros enum E. rr.
      - eexists. split; [apply put_new|]. split; [rr|]. intros enum E. rewrite (one_enum _ _ E). rr.
    Qed.
  End Proof.
End Tests.
