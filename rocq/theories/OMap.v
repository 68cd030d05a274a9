(** The ordered maps of v0/pkg/raml/*Map.go.

    All 21 files are instances of one template; line numbers below are those of
    v0/pkg/raml/AnyMap.go.  The other files differ in the key type
    ([string] instead of [interface{}]), the value type, and whether GetOpt exists.

    A Go map ([index]) is an association list; what Go leaves open (the enumeration order) is not observable through
    the functions of this file (OMapJson.v deals with MarshalJSON). *)
From Verif Require Import Base.

Section OMap.
  Variables K V : Type.
  (** Go's [==] on keys.  For interface{} keys it is not reflexive (NaN). *)
  Variable keq : K -> K -> bool.
  (** Whether using the key with a Go map panics ("hash of unhashable type"). *)
  Variable hashable : K -> bool.

  (** AnyMap.go:108-112 implAnyMap *)
  Record omap : Type := mkOMap {
    ordered : list (K * V);
    index : list (K * V);
    outOrder : bool
  }.

  (** AnyMap.go:99-105 NewAnyMap.  The initial capacity has no observable effect and is left out. *)
  Definition new_map : omap := mkOMap [] [] true.

  (** Go map read [m[k]]. *)
  Fixpoint gomap_find (k : K) (m : list (K * V)) : option V :=
    match m with
    | [] => None
    | (k', v) :: t => if keq k' k then Some v else gomap_find k t
    end.

  Definition gomap_get (k : K) (m : list (K * V)) : res (option V) :=
    if hashable k then Ok (gomap_find k m) else Panic.

  (** Go map write [m[k] = v]: overwrites the entry with an equal key, else adds one. *)
  Fixpoint gomap_upd (k : K) (v : V) (m : list (K * V)) : list (K * V) :=
    match m with
    | [] => [(k, v)]
    | (k', v') :: t => if keq k' k then (k', v) :: t else (k', v') :: gomap_upd k v t
    end.

  Definition gomap_set (k : K) (v : V) (m : list (K * V)) : res (list (K * V)) :=
    if hashable k then Ok (gomap_upd k v m) else Panic.

  (** Go [delete(m, k)]. *)
  Fixpoint gomap_rem (k : K) (m : list (K * V)) : list (K * V) :=
    match m with
    | [] => []
    | (k', v') :: t => if keq k' k then t else (k', v') :: gomap_rem k t
    end.

  Definition gomap_delete (k : K) (m : list (K * V)) : res (list (K * V)) :=
    if hashable k then Ok (gomap_rem k m) else Panic.

  (** AnyMap.go:223-227, the scan of IndexOf; [None] is falling out of the loop. *)
  Fixpoint scan (j : nat) (k : K) (l : list (K * V)) : option nat :=
    match l with
    | [] => None
    | (k', _) :: t => if keq k' k then Some j else scan (S j) k t
    end.

  (** AnyMap.go:219-229 IndexOf; [None] stands for -1. *)
  Definition index_of (k : K) (m : omap) : res (option nat) :=
    do found <- gomap_get k (index m);
    match found with
    | None => Ok None
    | Some _ =>
      match scan 0 k (ordered m) with
      | Some j => Ok (Some j)
      | None => Panic (* "invalid map state, out of sync" *)
      end
    end.

  (** AnyMap.go:231-240 Delete *)
  Definition delete (k : K) (m : omap) : res omap :=
    do pos <- index_of k m;
    match pos with
    | None => Ok m
    | Some j =>
      do ix <- gomap_delete k (index m);
      Ok (mkOMap (firstn j (ordered m) ++ skipn (S j) (ordered m)) ix (outOrder m))
    end.

  (** AnyMap.go:159-164 Put *)
  Definition put (k : K) (v : V) (m : omap) : res omap :=
    do m1 <- delete k m;
    do ix <- gomap_set k v (index m1);
    Ok (mkOMap (ordered m1 ++ [(k, v)]) ix (outOrder m1)).

  (** AnyMap.go:166-172 PutIfNotNil; [None] is a nil argument, [Some v] a non-nil one with pointee [v]. *)
  Definition put_if_not_nil (k : K) (v : option V) (m : omap) : res omap :=
    match v with
    | None => Ok m
    | Some x => put k x m
    end.

  (** [ordered[pos].Val = v] *)
  Fixpoint set_val (j : nat) (v : V) (l : list (K * V)) : list (K * V) :=
    match l, j with
    | [], _ => []
    | (k, _) :: t, O => (k, v) :: t
    | p :: t, S j' => p :: set_val j' v t
    end.

  (** AnyMap.go:182-191 ReplaceIfExists *)
  Definition replace_if_exists (k : K) (v : V) (m : omap) : res omap :=
    do pos <- index_of k m;
    match pos with
    | None => Ok m
    | Some j =>
      do ix <- gomap_set k v (index m);
      Ok (mkOMap (set_val j v (ordered m)) ix (outOrder m))
    end.

  (** AnyMap.go:193-196 Get, 198-204 GetOpt *)
  Definition get (k : K) (m : omap) : res (option V) := gomap_get k (index m).

  (** AnyMap.go:214-217 Has *)
  Definition has (k : K) (m : omap) : res bool :=
    do o <- gomap_get k (index m);
    Ok (match o with Some _ => true | None => false end).

  (** AnyMap.go:174-180 ReplaceOrPut *)
  Definition replace_or_put (k : K) (v : V) (m : omap) : res omap :=
    do b <- has k m;
    if b then replace_if_exists k v m else put k v m.

  (** AnyMap.go:210-212 Len *)
  Definition len (m : omap) : nat := List.length (ordered m).

  (** AnyMap.go:206-208 At: Go panics on an index out of range. *)
  Definition at_ (j : Z) (m : omap) : res (K * V) :=
    if (j <? 0)%Z then Panic
    else match nth_error (ordered m) (Z.to_nat j) with
         | Some e => Ok e
         | None => Panic
         end.

  (** AnyMap.go:250-253 SerializeOrdered *)
  Definition serialize_ordered (b : bool) (m : omap) : omap :=
    mkOMap (ordered m) (index m) b.

  (** AnyMap.go:242-248 ForEach.  [range i.ordered] evaluates the length once; the
      element is read from the current slice, so a callback that edits the map is seen.
      The callback works on a state of its own and on the map. *)
  Fixpoint for_each_loop {S} (todo j : nat) (f : K -> V -> S * omap -> res (S * omap))
           (s : S * omap) : res (S * omap) :=
    match todo with
    | O => Ok s
    | Datatypes.S todo' =>
      match nth_error (ordered (snd s)) j with
      | None => Panic
      | Some (k, v) => do s' <- f k v s; for_each_loop todo' (Datatypes.S j) f s'
      end
    end.

  Definition for_each {S} (f : K -> V -> S * omap -> res (S * omap)) (s : S) (m : omap)
    : res (S * omap) :=
    for_each_loop (len m) 0 f (s, m).

  (** A callback that only accumulates what it is given. *)
  Definition collect (k : K) (v : V) (s : list (K * V) * omap) : res (list (K * V) * omap) :=
    Ok (fst s ++ [(k, v)], snd s).

  (** The operations as data, for histories. *)
  Inductive op : Type :=
  | OPut (k : K) (v : V)
  | OPutIfNotNil (k : K) (v : option V)
  | OReplaceOrPut (k : K) (v : V)
  | OReplaceIfExists (k : K) (v : V)
  | ODelete (k : K)
  | OSerializeOrdered (b : bool)
  | OGet (k : K)
  | OGetOpt (k : K)
  | OHas (k : K)
  | OLen
  | OAt (j : Z)
  | OIndexOf (k : K)
  | OForEach.

  (** What a caller sees of an operation. *)
  Inductive obs : Type :=
  | RNone
  | RVal (v : option V)
  | RBool (b : bool)
  | RInt (j : Z)
  | REntry (e : K * V)
  | REntries (l : list (K * V)).

  Definition upd (r : res omap) : res (omap * obs) := do m <- r; Ok (m, RNone).
  Definition ask {A} (m : omap) (f : A -> obs) (r : res A) : res (omap * obs) :=
    do a <- r; Ok (m, f a).

  Definition step (m : omap) (o : op) : res (omap * obs) :=
    match o with
    | OPut k v => upd (put k v m)
    | OPutIfNotNil k v => upd (put_if_not_nil k v m)
    | OReplaceOrPut k v => upd (replace_or_put k v m)
    | OReplaceIfExists k v => upd (replace_if_exists k v m)
    | ODelete k => upd (delete k m)
    | OSerializeOrdered b => Ok (serialize_ordered b m, RNone)
    | OGet k => ask m RVal (get k m)
    | OGetOpt k => ask m RVal (get k m)
    | OHas k => ask m RBool (has k m)
    | OLen => Ok (m, RInt (Z.of_nat (len m)))
    | OAt j => ask m REntry (at_ j m)
    | OIndexOf k =>
      ask m (fun p => RInt (match p with Some j => Z.of_nat j | None => -1 end)) (index_of k m)
    | OForEach =>
      do s <- for_each collect [] m; Ok (snd s, REntries (fst s))
    end.

  (** The observations of a whole history, up to and including a panic. *)
  Inductive trace : Type :=
  | TEnd
  | TPanic
  | TObs (r : obs) (t : trace).

  Fixpoint run (m : omap) (ops : list op) : trace :=
    match ops with
    | [] => TEnd
    | o :: t =>
      match step m o with
      | Ok (m', r) => TObs r (run m' t)
      | _ => TPanic
      end
    end.

  (** The state after a history, if it did not panic. *)
  Fixpoint exec (m : omap) (ops : list op) : res omap :=
    match ops with
    | [] => Ok m
    | o :: t => do s <- step m o; exec (fst s) t
    end.

  (** The keys an operation mentions. *)
  Definition op_keys (o : op) : list K :=
    match o with
    | OPut k _ | OPutIfNotNil k _ | OReplaceOrPut k _ | OReplaceIfExists k _
    | ODelete k | OGet k | OGetOpt k | OHas k | OIndexOf k => [k]
    | OSerializeOrdered _ | OLen | OAt _ | OForEach => []
    end.

End OMap.

Arguments mkOMap {K V}.
Arguments ordered {K V}.
Arguments index {K V}.
Arguments outOrder {K V}.
Arguments new_map {K V}.
Arguments gomap_find {K V}.
Arguments gomap_upd {K V}.
Arguments gomap_rem {K V}.
Arguments gomap_get {K V}.
Arguments gomap_set {K V}.
Arguments gomap_delete {K V}.
Arguments scan {K V}.
Arguments index_of {K V}.
Arguments delete {K V}.
Arguments put {K V}.
Arguments put_if_not_nil {K V}.
Arguments set_val {K V}.
Arguments replace_if_exists {K V}.
Arguments get {K V}.
Arguments has {K V}.
Arguments replace_or_put {K V}.
Arguments len {K V}.
Arguments at_ {K V}.
Arguments serialize_ordered {K V}.
Arguments for_each_loop {K V S}.
Arguments for_each {K V S}.
Arguments collect {K V}.
Arguments step {K V}.
Arguments run {K V}.
Arguments exec {K V}.
Arguments op_keys {K V}.
Arguments OPut {K V}.
Arguments OPutIfNotNil {K V}.
Arguments OReplaceOrPut {K V}.
Arguments OReplaceIfExists {K V}.
Arguments ODelete {K V}.
Arguments OSerializeOrdered {K V}.
Arguments OGet {K V}.
Arguments OGetOpt {K V}.
Arguments OHas {K V}.
Arguments OLen {K V}.
Arguments OAt {K V}.
Arguments OIndexOf {K V}.
Arguments OForEach {K V}.
Arguments RNone {K V}.
Arguments RVal {K V}.
Arguments RBool {K V}.
Arguments RInt {K V}.
Arguments REntry {K V}.
Arguments REntries {K V}.
Arguments TEnd {K V}.
Arguments TPanic {K V}.
Arguments TObs {K V}.
