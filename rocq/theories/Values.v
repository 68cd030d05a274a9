(** Go values held in interface{} fields and maps, their conversion to YAML nodes, and the
    ToYAML methods of the ordered maps. *)
From Coq Require Import SpecFloat.
From Verif Require Import Base Num OMap OMapSpec Keys Yaml.

(** An interface{} value.  [GUint] is a uint.  [GOther r] is a value of any other type; all that is known of it is the outcome [r] of
    converting it to a node. *)
Inductive gval : Type :=
| GNil
| GStr (s : string)
| GBool (b : bool)
| GInt (z : Z)
| GUint (z : Z)
| GFloat (f : spec_float)
| GNode (n : node)
| GList (l : list gval)
| GOther (r : res node).

Section GvalInd.
  Variable P : gval -> Prop.
  Hypothesis HNil : P GNil.
  Hypothesis HStr : forall s, P (GStr s).
  Hypothesis HBool : forall b, P (GBool b).
  Hypothesis HInt : forall z, P (GInt z).
  Hypothesis HUint : forall z, P (GUint z).
  Hypothesis HFloat : forall f, P (GFloat f).
  Hypothesis HNode : forall n, P (GNode n).
  Hypothesis HList : forall l, Forall P l -> P (GList l).
  Hypothesis HOther : forall r, P (GOther r).

  Fixpoint gval_ind' (v : gval) : P v :=
    match v with
    | GNil => HNil
    | GStr s => HStr s
    | GBool b => HBool b
    | GInt z => HInt z
    | GUint z => HUint z
    | GFloat f => HFloat f
    | GNode n => HNode n
    | GList l => HList l (forall_list P gval_ind' l)
    | GOther r => HOther r
    end.
End GvalInd.

(** xyml.ToYamlNode (contract 5) *)
Fixpoint to_node {F : FloatIO} (v : gval) : res node :=
  match v with
  | GNil => Ok null_node
  | GStr s => Ok (str_node s)
  | GBool b => Ok (bool_node b)
  | GInt z | GUint z => Ok (int_node z)
  | GFloat f => Ok (float_node f)
  | GNode n => Ok n
  | GList l => do ns <- map_res to_node l; Ok (Seq TSeq ns)
  | GOther r => r
  end.

(** xyml.ToYamlNode on the key of an entry.  An unhashable key is never in a map. *)
Definition key_node {F : FloatIO} (k : gkey) : res node :=
  match k with
  | KNil => Ok null_node
  | KBool b => Ok (bool_node b)
  | KStr s => Ok (str_node s)
  | KInt z => Ok (int_node z)
  | KFloat f => Ok (float_node f)
  | KUnhash _ => Err
  end.

(** ** Maps as lists

    Above OMap.v an ordered map is its list of entries (first to last) and its [outOrder] flag; theorem C01 justifies this. *)
Record amap (K V : Type) : Type := mkMap { ents : list (K * V); oord : bool }.
Arguments mkMap {K V}.
Arguments ents {K V}.
Arguments oord {K V}.

(** The list view of a map of OMap.v. *)
Definition view {K V} (m : omap K V) : amap K V := mkMap (ordered m) (outOrder m).

(** NewXMap; and NewXMap(..).SerializeOrdered(false) *)
Definition anew {K V} : amap K V := mkMap [] true.
Definition anew_unordered {K V} : amap K V := mkMap [] false.

(** Put on a string map and on AnyMap *)
Definition mput {V} (k : string) (v : V) (m : amap string V) : amap string V :=
  mkMap (sput String.eqb k v (ents m)) (oord m).
Definition kput {V} (k : gkey) (v : V) (m : amap gkey V) : amap gkey V :=
  mkMap (sput gkey_eqb k v (ents m)) (oord m).

(** Len() > 0 *)
Definition nonempty {K V} (m : amap K V) : bool :=
  match ents m with [] => false | _ => true end.

(** pkg/raml/AnyMap.go:131-157 ToYAML (the 21 map files are alike): the entries are converted in order, key before value;
    [outOrder] selects the form. *)
Definition entry_node {K V} (kn : K -> res node) (vn : V -> res node) (e : K * V) : res (node * node) :=
  do k <- kn (fst e); do v <- vn (snd e); Ok (k, v).

Definition map_to_yaml {K V} (kn : K -> res node) (vn : V -> res node) (m : amap K V) : res node :=
  if oord m
  then do l <- map_res (fun e => do p <- entry_node kn vn e; Ok (Map TMap [p])) (ents m); Ok (Seq TOMap l)
  else do l <- map_res (entry_node kn vn) (ents m); Ok (Map TMap l).

(** Key conversion of the string maps. *)
Definition skey_node (k : string) : res node := Ok (str_node k).

(** ** Facts *)

Lemma map_res_entries {K V} (kn : K -> res node) (vn : V -> res node) (l : list (K * V)) r :
  map_res (entry_node kn vn) l = Ok r ->
  Forall2 (fun e p => kn (fst e) = Ok (fst p) /\ vn (snd e) = Ok (snd p)) l r.
Proof.
  intros H. apply map_res_ok in H. induction H as [|e p l r He _ IH]; constructor; [|exact IH].
  unfold entry_node in He. apply bind_ok in He as [a [Ha He]]. apply bind_ok in He as [b [Hb He]].
  injection He as <-. auto.
Qed.

Lemma sput_fresh {K V} keq k (v : V) (l : list (K * V)) :
  (forall e, In e l -> keq (fst e) k = false) -> sput keq k v l = l ++ [(k, v)].
Proof.
  intros H. unfold sput, sdelete. f_equal.
  induction l as [|e l IH]; simpl; [reflexivity|]. unfold other at 1.
  rewrite (H e (or_introl eq_refl)); simpl. f_equal. apply IH. intros; apply H; right; assumption.
Qed.

Lemma mput_fresh {V} k (v : V) l b : ~ In k (map fst l) -> mput k v (mkMap l b) = mkMap (l ++ [(k, v)]) b.
Proof.
  intros H. unfold mput; simpl. rewrite sput_fresh; [reflexivity|].
  intros e He. apply String.eqb_neq. intros E. apply H. rewrite <- E. apply in_map; exact He.
Qed.
