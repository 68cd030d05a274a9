(** Specification of the ordered maps: a list of key/value pairs, first to last.
    It shares with OMap.v only the vocabulary of operations and observations. *)
From Verif Require Import Base OMap.

Section Spec.
  Variables K V : Type.
  Variable keq : K -> K -> bool.

  Definition other (k : K) (e : K * V) : bool := negb (keq (fst e) k).

  (** removing a key *)
  Definition sdelete (k : K) (l : list (K * V)) : list (K * V) := filter (other k) l.

  (** putting: the key is removed and the new pair comes last *)
  Definition sput (k : K) (v : V) (l : list (K * V)) : list (K * V) := sdelete k l ++ [(k, v)].

  (** replacing in place *)
  Definition sreplace (k : K) (v : V) (l : list (K * V)) : list (K * V) :=
    map (fun e => if keq (fst e) k then (fst e, v) else e) l.

  Definition sget (k : K) (l : list (K * V)) : option V :=
    option_map snd (find (fun e => keq (fst e) k) l).

  Definition shas (k : K) (l : list (K * V)) : bool := existsb (fun e => keq (fst e) k) l.

  (** position of the first pair with that key *)
  Fixpoint spos (k : K) (l : list (K * V)) : Z :=
    match l with
    | [] => -1
    | e :: t => if keq (fst e) k then 0%Z
                else let p := spos k t in if (p <? 0)%Z then -1 else (1 + p)%Z
    end.

  Definition sat (j : Z) (l : list (K * V)) : option (K * V) :=
    if (j <? 0)%Z then None else nth_error l (Z.to_nat j).

  (** state and observation after one operation; [None] is a panic *)
  Definition sstep (l : list (K * V)) (o : op K V) : option (list (K * V) * obs K V) :=
    match o with
    | OPut k v => Some (sput k v l, RNone)
    | OPutIfNotNil k None => Some (l, RNone)
    | OPutIfNotNil k (Some v) => Some (sput k v l, RNone)
    | OReplaceOrPut k v => Some (if shas k l then sreplace k v l else sput k v l, RNone)
    | OReplaceIfExists k v => Some (sreplace k v l, RNone)
    | ODelete k => Some (sdelete k l, RNone)
    | OSerializeOrdered _ => Some (l, RNone)
    | OGet k | OGetOpt k => Some (l, RVal (sget k l))
    | OHas k => Some (l, RBool (shas k l))
    | OLen => Some (l, RInt (Z.of_nat (List.length l)))
    | OAt j => match sat j l with Some e => Some (l, REntry e) | None => None end
    | OIndexOf k => Some (l, RInt (spos k l))
    | OForEach => Some (l, REntries l)
    end.

  Fixpoint srun (l : list (K * V)) (ops : list (op K V)) : trace K V :=
    match ops with
    | [] => TEnd
    | o :: t =>
      match sstep l o with
      | Some (l', r) => TObs r (srun l' t)
      | None => TPanic
      end
    end.

  (** The list after a history (operations that panic do not count). *)
  Fixpoint sexec (l : list (K * V)) (ops : list (op K V)) : list (K * V) :=
    match ops with
    | [] => l
    | o :: t => match sstep l o with Some (l', _) => sexec l' t | None => sexec l t end
    end.

End Spec.

Arguments other {K V}.
Arguments sdelete {K V}.
Arguments sput {K V}.
Arguments sreplace {K V}.
Arguments sget {K V}.
Arguments shas {K V}.
Arguments spos {K V}.
Arguments sat {K V}.
Arguments sstep {K V}.
Arguments srun {K V}.
Arguments sexec {K V}.
