(** The ordered maps under goroutines: each method of v0/pkg/raml/*Map.go as the sequence of its accesses to the memory of the map, and
    goroutines that take turns access by access.  Line numbers are those of v0/pkg/raml/AnyMap.go.

    Each access (the slice header, one entry of a backing array, one operation of the Go map, the flag) is one indivisible step; the hardware
    and the Go memory model allow more, so this is the best case for the program. *)
From Verif Require Import Base OMap.

Section Conc.
  Variables K V : Type.
  Variable keq : K -> K -> bool.
  Variable hashable : K -> bool.
  (** The zero entry, which fills a new array. *)
  Variable zero : K * V.
  (** How much room [append] leaves in a new array; the Go specification leaves it open. *)
  Variable grow : nat -> nat.

  (** A slice header. *)
  Record header : Type := mkHdr { h_arr : nat; h_len : nat; h_cap : nat }.

  (** AnyMap.go:108-112: the struct, and the memory behind it (backing arrays by number). *)
  Record shared : Type := mkShared { s_hdr : header; s_arrays : list (list (K * V)); s_index : list (K * V); s_flag : bool }.

  (** The accesses. *)
  Inductive act : Type -> Type :=
  | AHdr : act header                            (* read i.ordered *)
  | ASetHdr (h : header) : act unit              (* write i.ordered *)
  | ACell (a j : nat) : act (K * V)              (* read an entry *)
  | ASet (a j : nat) (e : K * V) : act unit      (* write an entry *)
  | ASetVal (a j : nat) (v : V) : act unit       (* write the Val of an entry *)
  | ANew (l : list (K * V)) : act header         (* a new array with room to spare *)
  | AFind (k : K) : act (option V)               (* i.index[k] *)
  | AUpd (k : K) (v : V) : act unit              (* i.index[k] = v *)
  | ARem (k : K) : act unit                      (* delete(i.index, k) *)
  | AEnum : act (list (K * V))                   (* range i.index *)
  | AFlag : act bool                             (* read i.outOrder *)
  | ASetFlag (b : bool) : act unit.              (* write i.outOrder *)

  Fixpoint set_at {A} (n : nat) (x : A) (l : list A) : list A :=
    match l, n with
    | [], _ => []
    | _ :: t, O => x :: t
    | y :: t, S n' => y :: set_at n' x t
    end.

  Definition array (s : shared) (a : nat) : list (K * V) := nth a (s_arrays s) [].
  Definition cell (s : shared) (a j : nat) : K * V := nth j (array s a) zero.
  Definition set_cell (s : shared) (a j : nat) (e : K * V) : shared :=
    mkShared (s_hdr s) (set_at a (set_at j e (array s a)) (s_arrays s)) (s_index s) (s_flag s).

  Definition access {X} (a : act X) (s : shared) : shared * X :=
    match a with
    | AHdr => (s, s_hdr s)
    | ASetHdr h => (mkShared h (s_arrays s) (s_index s) (s_flag s), tt)
    | ACell a j => (s, cell s a j)
    | ASet a j e => (set_cell s a j e, tt)
    | ASetVal a j v => (set_cell s a j (fst (cell s a j), v), tt)
    | ANew l =>
      let room := repeat zero (grow (List.length l)) in
      (mkShared (s_hdr s) (s_arrays s ++ [l ++ room]) (s_index s) (s_flag s),
       mkHdr (List.length (s_arrays s)) (List.length l) (List.length (l ++ room)))
    | AFind k => (s, gomap_find keq k (s_index s))
    | AUpd k v => (mkShared (s_hdr s) (s_arrays s) (gomap_upd keq k v (s_index s)) (s_flag s), tt)
    | ARem k => (mkShared (s_hdr s) (s_arrays s) (gomap_rem keq k (s_index s)) (s_flag s), tt)
    | AEnum => (s, s_index s)
    | AFlag => (s, s_flag s)
    | ASetFlag b => (mkShared (s_hdr s) (s_arrays s) (s_index s) b, tt)
    end.

  (** Code: what is left to do. *)
  Inductive code (A : Type) : Type :=
  | Ret (a : A)
  | Fail                                         (* a panic *)
  | Do {X} (a : act X) (k : X -> code A).
  Arguments Ret {A}.
  Arguments Fail {A}.
  Arguments Do {A X}.

  Fixpoint seq {A B} (p : code A) (f : A -> code B) : code B :=
    match p with
    | Ret a => f a
    | Fail => Fail
    | Do a k => Do a (fun x => seq (k x) f)
    end.

  (** ** The methods *)

  (** AnyMap.go:222-227: the loop of IndexOf; [range] takes the length once, `i.ordered[j]` reads the header again. *)
  Fixpoint c_scan (k : K) (todo j : nat) : code (option nat) :=
    match todo with
    | O => Fail (* "invalid map state, out of sync" *)
    | S todo' =>
      Do AHdr (fun h =>
        if (j <? h_len h)%nat then
          Do (ACell (h_arr h) j) (fun e => if keq (fst e) k then Ret (Some j) else c_scan k todo' (S j))
        else Fail)
    end.

  (** A Go map panics on a key that cannot be hashed. *)
  Definition c_find (k : K) : code (option V) := if hashable k then Do (AFind k) Ret else Fail.

  (** AnyMap.go:219-229 IndexOf *)
  Definition c_index_of (k : K) : code (option nat) :=
    seq (c_find k) (fun o =>
      match o with
      | None => Ret None
      | Some _ => Do AHdr (fun h => c_scan k (h_len h) 0)
      end).

  (** Entries of an array, one after the other. *)
  Fixpoint c_read (a j n : nat) : code (list (K * V)) :=
    match n with
    | O => Ret []
    | S n' => Do (ACell a j) (fun e => seq (c_read a (S j) n') (fun l => Ret (e :: l)))
    end.

  Fixpoint c_write (a j : nat) (l : list (K * V)) : code unit :=
    match l with
    | [] => Ret tt
    | e :: t => Do (ASet a j e) (fun _ => c_write a (S j) t)
    end.

  (** append(x, l...): in place if there is room, else in a new array. *)
  Definition c_append (h : header) (l : list (K * V)) : code header :=
    if (h_len h + List.length l <=? h_cap h)%nat then
      seq (c_write (h_arr h) (h_len h) l) (fun _ => Ret (mkHdr (h_arr h) (h_len h + List.length l) (h_cap h)))
    else seq (c_read (h_arr h) 0 (h_len h)) (fun old => Do (ANew (old ++ l)) Ret).

  (** AnyMap.go:231-240 Delete: append(i.ordered[:pos], i.ordered[pos+1:]...) reads the header twice and moves the tail down. *)
  Definition c_delete (k : K) : code unit :=
    seq (c_index_of k) (fun pos =>
      match pos with
      | None => Ret tt
      | Some j =>
        Do AHdr (fun h1 => Do AHdr (fun h2 =>
          if (j <=? h_cap h1)%nat && (S j <=? h_len h2)%nat then
            seq (c_read (h_arr h2) (S j) (h_len h2 - S j)) (fun l =>
            seq (c_append (mkHdr (h_arr h1) j (h_cap h1)) l) (fun h => Do (ASetHdr h) (fun _ => Do (ARem k) Ret)))
          else Fail))
      end).

  (** AnyMap.go:159-164 Put *)
  Definition c_put (k : K) (v : V) : code unit :=
    seq (c_delete k) (fun _ => Do (AUpd k v) (fun _ => Do AHdr (fun h => seq (c_append h [(k, v)]) (fun h' => Do (ASetHdr h') Ret)))).

  (** AnyMap.go:182-191 ReplaceIfExists *)
  Definition c_replace (k : K) (v : V) : code unit :=
    seq (c_index_of k) (fun pos =>
      match pos with
      | None => Ret tt
      | Some j => Do (AUpd k v) (fun _ => Do AHdr (fun h => if (j <? h_len h)%nat then Do (ASetVal (h_arr h) j v) Ret else Fail))
      end).

  (** AnyMap.go:174-180 ReplaceOrPut *)
  Definition c_replace_or_put (k : K) (v : V) : code unit :=
    seq (c_find k) (fun o => match o with Some _ => c_replace k v | None => c_put k v end).

  (** AnyMap.go:206-208 At *)
  Definition c_at (j : Z) : code (K * V) :=
    Do AHdr (fun h => if ((0 <=? j) && (j <? Z.of_nat (h_len h)))%Z then Do (ACell (h_arr h) (Z.to_nat j)) Ret else Fail).

  (** AnyMap.go:242-248 ForEach with a function that notes what it is given; the arguments are two reads of `i.ordered[j]`. *)
  Fixpoint c_each (todo j : nat) : code (list (K * V)) :=
    match todo with
    | O => Ret []
    | S todo' =>
      Do AHdr (fun h1 => if (j <? h_len h1)%nat then Do (ACell (h_arr h1) j) (fun e1 =>
      Do AHdr (fun h2 => if (j <? h_len h2)%nat then Do (ACell (h_arr h2) j) (fun e2 =>
        seq (c_each todo' (S j)) (fun l => Ret ((fst e1, snd e2) :: l))) else Fail)) else Fail)
    end.

  (** The methods a goroutine may call: those of [op], ToYAML and MarshalJSON. *)
  Inductive call : Type :=
  | COp (o : op K V)
  | CYaml
  | CJson.

  (** What it sees: for ToYAML and MarshalJSON, whether the output is ordered and what is written, in order or in some order. *)
  Inductive seen : Type :=
  | SObs (r : obs K V)
  | SYaml (ordered : bool) (l : list (K * V))
  | SJson (ordered : bool) (l : list (K * V)).

  Definition told {A} (p : code A) (f : A -> obs K V) : code seen := seq p (fun a => Ret (SObs (f a))).

  Definition method (c : call) : code seen :=
    match c with
    | COp (OPut k v) => told (c_put k v) (fun _ => RNone)
    | COp (OPutIfNotNil k None) => Ret (SObs (RNone))
    | COp (OPutIfNotNil k (Some v)) => told (c_put k v) (fun _ => RNone)
    | COp (OReplaceOrPut k v) => told (c_replace_or_put k v) (fun _ => RNone)
    | COp (OReplaceIfExists k v) => told (c_replace k v) (fun _ => RNone)
    | COp (ODelete k) => told (c_delete k) (fun _ => RNone)
    | COp (OSerializeOrdered b) => told (Do (ASetFlag b) Ret) (fun _ => RNone)
    | COp (OGet k) | COp (OGetOpt k) => told (c_find k) RVal
    | COp (OHas k) => told (c_find k) (fun o => RBool (match o with Some _ => true | None => false end))
    | COp OLen => told (Do AHdr Ret) (fun h => RInt (Z.of_nat (h_len h)))
    | COp (OAt j) => told (c_at j) REntry
    | COp (OIndexOf k) => told (c_index_of k) (fun p => RInt (match p with Some j => Z.of_nat j | None => (-1)%Z end))
    | COp OForEach => told (Do AHdr (fun h => c_each (h_len h) 0)) REntries
    (* AnyMap.go:131-157, 118-129: the receiver is a copy of the struct *)
    | CYaml => Do AHdr (fun h => Do AFlag (fun b => seq (c_read (h_arr h) 0 (h_len h)) (fun l => Ret (SYaml b l))))
    | CJson => Do AHdr (fun h => Do AFlag (fun b =>
        if b then seq (c_read (h_arr h) 0 (h_len h)) (fun l => Ret (SJson b l)) else Do AEnum (fun l => Ret (SJson b l))))
    end.

  (** ** Goroutines *)

  (** A program: calls, each of which may depend on what was seen. *)
  Inductive client (R : Type) : Type :=
  | Done (r : R)
  | Call (c : call) (k : seen -> client R).
  Arguments Done {R}.
  Arguments Call {R}.

  Fixpoint compile {R} (p : client R) : code R :=
    match p with
    | Done r => Ret r
    | Call c k => seq (method c) (fun x => compile (k x))
    end.

  (** Code that nobody interrupts; [None] is a panic. *)
  Fixpoint alone {A} (p : code A) (s : shared) : shared * option A :=
    match p with
    | Ret a => (s, Some a)
    | Fail => (s, None)
    | Do a k => let (s', x) := access a s in alone (k x) s'
    end.

  (** One access by goroutine [i]; a goroutine that has ended or panicked does nothing. *)
  Definition turn {A} (st : shared * list (code A)) (i : nat) : shared * list (code A) :=
    match nth_error (snd st) i with
    | Some (Do a k) => let (s', x) := access a (fst st) in (s', set_at i (k x) (snd st))
    | _ => st
    end.

  (** A schedule says whose turn it is. *)
  Definition play {A} (schedule : list nat) (st : shared * list (code A)) : shared * list (code A) := fold_left turn schedule st.

  (** ** With a lock

      The same goroutines, with a mutex held during each call.  [Wants]: before a call; [Holds]: in a call, with the code that is left. *)
  Inductive locked (R : Type) : Type :=
  | Wants (p : client R)
  | Holds (p : code seen) (k : seen -> client R)
  | Panicked.
  Arguments Wants {R}.
  Arguments Holds {R}.
  Arguments Panicked {R}.

  Record world (R : Type) : Type := mkWorld { w_mem : shared; w_owner : option nat; w_threads : list (locked R) }.
  Arguments mkWorld {R}.
  Arguments w_mem {R}.
  Arguments w_owner {R}.
  Arguments w_threads {R}.

  (** One step of goroutine [i]: it takes the mutex if it wants to and can, makes an access if it holds it, and gives it back after the last.
      A panic unlocks (a deferred Unlock). *)
  Definition lturn {R} (w : world R) (i : nat) : world R :=
    match nth_error (w_threads w) i with
    | Some (Wants (Call c k)) =>
      match w_owner w with
      | None => mkWorld (w_mem w) (Some i) (set_at i (Holds (method c) k) (w_threads w))
      | Some _ => w
      end
    | Some (Holds (Ret x) k) => mkWorld (w_mem w) None (set_at i (Wants (k x)) (w_threads w))
    | Some (Holds Fail _) => mkWorld (w_mem w) None (set_at i Panicked (w_threads w))
    | Some (Holds (Do a f) k) =>
      let (s', x) := access a (w_mem w) in mkWorld s' (w_owner w) (set_at i (Holds (f x) k) (w_threads w))
    | _ => w
    end.

  Definition lplay {R} (schedule : list nat) (w : world R) : world R := fold_left lturn schedule w.
End Conc.

Arguments mkShared {K V}.
Arguments s_hdr {K V}.
Arguments s_arrays {K V}.
Arguments s_index {K V}.
Arguments s_flag {K V}.
Arguments Ret {K V A}.
Arguments Fail {K V A}.
Arguments Do {K V A X}.
Arguments AHdr {K V}.
Arguments ASetHdr {K V}.
Arguments ACell {K V}.
Arguments ASet {K V}.
Arguments ASetVal {K V}.
Arguments ANew {K V}.
Arguments AFind {K V}.
Arguments AUpd {K V}.
Arguments ARem {K V}.
Arguments ASetFlag {K V}.
Arguments array {K V}.
Arguments cell {K V}.
Arguments set_cell {K V}.
Arguments access {K V} keq zero grow {X}.
Arguments seq {K V A B}.
Arguments c_scan {K V}.
Arguments c_find {K V}.
Arguments c_index_of {K V}.
Arguments c_read {K V}.
Arguments c_write {K V}.
Arguments c_append {K V}.
Arguments c_delete {K V}.
Arguments c_put {K V}.
Arguments c_replace {K V}.
Arguments c_replace_or_put {K V}.
Arguments c_at {K V}.
Arguments c_each {K V}.
Arguments told {K V A}.
Arguments method {K V}.
Arguments compile {K V} keq hashable {R}.
Arguments alone {K V} keq zero grow {A}.
Arguments turn {K V} keq zero grow {A}.
Arguments play {K V} keq zero grow {A}.
Arguments lturn {K V} keq hashable zero grow {R}.
Arguments lplay {K V} keq hashable zero grow {R}.
Arguments AFlag {K V}.
Arguments AEnum {K V}.
Arguments COp {K V}.
Arguments CYaml {K V}.
Arguments CJson {K V}.
Arguments SObs {K V}.
Arguments SYaml {K V}.
Arguments SJson {K V}.
Arguments Done {K V R}.
Arguments Call {K V R}.
Arguments Wants {K V R}.
Arguments Holds {K V R}.
Arguments Panicked {K V R}.
Arguments mkWorld {K V R}.
Arguments w_mem {K V R}.
Arguments w_owner {K V R}.
Arguments w_threads {K V R}.
