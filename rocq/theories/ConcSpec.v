(** What goroutines may expect of a map: the vocabulary of C71 and C72. *)
From Verif Require Import Base OMap Conc.

Section ConcSpec.
  Variables K V : Type.
  Variable keq : K -> K -> bool.
  Variable hashable : K -> bool.

  (** One call on a map, by itself. *)
  Definition answer (m : omap K V) (c : call K V) : res (omap K V * seen K V) :=
    match c with
    | COp o => do x <- step keq hashable m o; Ok (fst x, SObs (snd x))
    | CYaml => Ok (m, SYaml (outOrder m) (ordered m))
    | CJson => Ok (m, SJson (outOrder m) (if outOrder m then ordered m else index m))
    end.

  (** A whole program on a map nobody else uses: its result. *)
  Fixpoint result {R} (m : omap K V) (p : client K V R) : res R :=
    match p with
    | Done r => Ok r
    | Call c k => do x <- answer m c; result (fst x) (k (snd x))
    end.

  (** Memory that holds the map [m]. *)
  Definition holds (s : shared K V) (m : omap K V) : Prop :=
    let h := s_hdr s in
    (h_arr h < List.length (s_arrays s))%nat /\ List.length (array s (h_arr h)) = h_cap h /\ (h_len h <= h_cap h)%nat /\
    firstn (h_len h) (array s (h_arr h)) = ordered m /\ s_index s = index m /\ s_flag s = outOrder m.

  (** The calls that only ask. *)
  Definition asks (c : call K V) : bool :=
    match c with
    | COp (OGet _) | COp (OGetOpt _) | COp (OHas _) | COp OLen | COp (OAt _) | COp (OIndexOf _) | COp OForEach | CYaml | CJson => true
    | _ => false
    end.

  Inductive reader {R} : client K V R -> Prop :=
  | reader_done r : reader (Done r)
  | reader_call c k : asks c = true -> (forall x, reader (k x)) -> reader (Call c k).

  (** Whether an access writes, and what it touches.  A new array is nobody else's. *)
  Inductive place : Type := PHdr | PCell (a j : nat) | PIndex | PFlag | PNone.
  Definition touches {X} (a : act K V X) : place * bool :=
    match a with
    | AHdr => (PHdr, false)
    | ASetHdr _ => (PHdr, true)
    | ACell a j => (PCell a j, false)
    | ASet a j _ | ASetVal a j _ => (PCell a j, true)
    | ANew _ => (PNone, false)
    | AFind _ | AEnum => (PIndex, false)
    | AUpd _ _ | ARem _ => (PIndex, true)
    | AFlag => (PFlag, false)
    | ASetFlag _ => (PFlag, true)
    end.

  (** A data race: two goroutines are about to touch one place, one of them to write it. *)
  Definition race {A} (ps : list (code K V A)) : Prop :=
    exists i j X Y (a : act K V X) (b : act K V Y) f g, i <> j /\ nth_error ps i = Some (Do a f) /\ nth_error ps j = Some (Do b g) /\
      fst (touches a) = fst (touches b) /\ fst (touches a) <> PNone /\ (snd (touches a) = true \/ snd (touches b) = true).

  (** A history: which goroutine made which call and what it saw; the map after it. *)
  Definition event : Type := nat * call K V * seen K V.

  Fixpoint happened (m : omap K V) (h : list event) (m' : omap K V) : Prop :=
    match h with
    | [] => m' = m
    | (i, c, x) :: t => exists m1, answer m c = Ok (m1, x) /\ happened m1 t m'
    end.

  (** The events of goroutine [i] are calls its program makes, in order; [p'] is what is left of it. *)
  Fixpoint follows {R} (i : nat) (h : list event) (p p' : client K V R) : Prop :=
    match h with
    | [] => p' = p
    | (j, c, x) :: t => if (j =? i)%nat then exists k, p = Call c k /\ follows i t (k x) p' else follows i t p p'
    end.
End ConcSpec.

Arguments answer {K V}.
Arguments result {K V} keq hashable {R}.
Arguments holds {K V}.
Arguments asks {K V}.
Arguments reader {K V R}.
Arguments touches {K V X}.
Arguments race {K V A}.
Arguments happened {K V}.
Arguments follows {K V R}.
