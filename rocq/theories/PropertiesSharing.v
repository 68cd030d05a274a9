(** Property C86: an object that is put into several places is one object. *)
From Coq Require Import SpecFloat.
From Verif Require Import Base Num OMap OMapSpec Keys Yaml Values Assign Formats Meta Out Xml Example DataType Marshal Doc Api Library TypeFacts Setters SetterSpec Live Objects
  ObjProofs ObjHeap ObjPrograms ObjLoad Independent IndependentProofs Sharing SharingProofs PropertiesObjects PropertiesIndependent.

(** Whatever a program has done, what a variable holds can be described, to getters and to saving alike, unless some object it leads to contains itself. *)
Theorem C86_always us x r : Forall suse_once us -> snd (smemory us) x = Some r -> (exists t, shows (smemory us) x t) \/ endless (smemory us) x.
Proof. exact (shows_or_endless us x r). Qed.
Print Assumptions C86_always.
(** In that case, saving does not end. *)
Theorem C86_endless us x r : Forall suse_once us -> endless (smemory us) x -> snd (smemory us) x = Some r -> whole (fst (smemory us)) r = None.
Proof. exact (endless_unsaved us x r). Qed.
Print Assumptions C86_endless.

(** Two ways to one object show the same. *)
Theorem C86_one us x y ns ms i t u : Forall suse_once us -> found (smemory us) x ns = Some i -> found (smemory us) y ms = Some i -> shows (smemory us) x t -> shows (smemory us) y u ->
  exists q, follow ns t = Some q /\ follow ms u = Some q.
Proof. exact (one_object us x y ns ms i t u). Qed.
Print Assumptions C86_one.

(** A call with new arguments on the object [i], however it was found, shows in everything at all the places that lead to [i], and at no others. *)
Theorem C86_call us x ns a i y t : Forall suse_once us -> once_act a -> found (smemory us) x ns = Some i -> shows (smemory us) y t ->
  exists t', shows (smemory (us ++ [SDo x ns a])) y t' /\ edited_at_all (fun ms => found (smemory us) y ms = Some i) a t t' /\
    forall ms, found (smemory us) y ms = Some i -> found (smemory (us ++ [SDo x ns a])) y ms = Some i.
Proof. exact (fun H => do_everywhere us H x ns a i y t). Qed.
Print Assumptions C86_call.

(** A call on the object [i] that is given the object [r] in [z], which does not lead to [i]: it shows as the call with the value of [r] would, at all the places that lead to [i] and at no others;
    and what is there then is the object [r] itself. *)
Theorem C86_give us x ns g z i r t0 u y t : Forall suse_once us -> found (smemory us) x ns = Some i -> snd (smemory us) z = Some r ->
  shows (smemory us) x t0 -> shows (smemory us) z u -> (forall ms, found (smemory us) z ms <> Some i) -> shows (smemory us) y t ->
  let s' := smemory (us ++ [SGive x ns g z]) in
  exists t', shows s' y t' /\ (forall ms, found (smemory us) y ms = Some i -> found s' y ms = Some i) /\
    match follow ns t0 with
    | Some q =>
      match give_act g q u with
      | Some a => edited_at_all (fun ms => found (smemory us) y ms = Some i) a t t' /\
                  (takes g q = true -> forall ms, found (smemory us) y ms = Some i -> found s' y (ms ++ [slot g]) = Some r)
      | None => t' = t
      end
    | None => False
    end.
Proof. exact (fun H => give_everywhere us H x ns g z i r t0 u y t). Qed.
Print Assumptions C86_give.
(** An object that does lead to [i] makes what [x] holds endless. *)
Theorem C86_cycle us x ns g z i t0 q u a ms : Forall suse_once us -> found (smemory us) x ns = Some i -> shows (smemory us) x t0 -> shows (smemory us) z u -> found (smemory us) z ms = Some i ->
  follow ns t0 = Some q -> give_act g q u = Some a -> takes g q = true -> endless (smemory (us ++ [SGive x ns g z])) x.
Proof. exact (fun H => give_cycle us H x ns g z i t0 q u a ms). Qed.
Print Assumptions C86_cycle.
(** What does not lead to [i] does not change. *)
Theorem C86_elsewhere us x ns g z i y t : Forall suse_once us -> found (smemory us) x ns = Some i -> shows (smemory us) y t -> (forall ms, found (smemory us) y ms <> Some i) ->
  shows (smemory (us ++ [SGive x ns g z])) y t.
Proof. exact (fun H => give_elsewhere us H x ns g z i y t). Qed.
Print Assumptions C86_elsewhere.

(** A variable that takes what getters lead to holds that same object. *)
Theorem C86_take us y x ns t q ms : Forall suse_once us -> shows (smemory us) x t -> follow ns t = Some q ->
  shows (smemory (us ++ [STake y x ns])) y q /\ found (smemory (us ++ [STake y x ns])) y ms = found (smemory us) x (ns ++ ms).
Proof. exact (fun H => take_same us H y x ns t q ms). Qed.
Print Assumptions C86_take.
(** A new object is nowhere else. *)
Theorem C86_new us x t : Forall suse_once us -> once t ->
  shows (smemory (us ++ [SOpen x t])) x t /\
  forall y u, y <> x -> shows (smemory us) y u ->
    shows (smemory (us ++ [SOpen x t])) y u /\ forall ns ms i, found (smemory (us ++ [SOpen x t])) x ns = Some i -> found (smemory (us ++ [SOpen x t])) y ms <> Some i.
Proof. exact (fun H => open_new us H x t). Qed.
Print Assumptions C86_new.

(** ** Cases *)

(** A document from a file, a new type that is put into it under two names, and a call on that type. *)
Definition twice_in : list suse := [SOpen 0 (ThApi loaded); SOpen 1 (ThDef (new_type TyString)); SGive 0 [NField FdTypes] (GivePut "C") 1; SGive 0 [NField FdTypes] (GivePut "D") 1].
Example C86_once : Forall suse_once twice_in /\ once_act b_descr.
Proof. split; [|intros n t []]. repeat constructor; [exact C79_document_once|exact (proj1 C79_made TyString)]. Qed.
Definition way (k : string) : list name := [NField FdTypes; NKey k].
Example C86_ways :
  found (smemory twice_in) 1 [] = found (smemory twice_in) 0 (way "C") /\ found (smemory twice_in) 1 [] = found (smemory twice_in) 0 (way "D") /\ found (smemory twice_in) 1 [] <> None /\
  found (smemory twice_in) 0 (way "A") <> None /\ found (smemory twice_in) 1 [] <> found (smemory twice_in) 0 (way "A").
Proof. vm_compute. repeat split; discriminate. Qed.
Example C86_seen :
  let s := smemory (twice_in ++ [SDo 1 [] b_descr]) in
  match snd s 0, snd s 1 with
  | Some r0, Some r1 =>
    match whole (fst s) r0, whole (fst s) r1 with
    | Some t0, Some t1 => follow (way "C") t0 = Some t1 /\ follow (way "D") t0 = Some t1 /\ t1 <> ThDef (new_type TyString) /\ follow (way "A") t0 = follow (way "A") (ThApi loaded)
    | _, _ => False
    end
  | _, _ => False
  end.
Proof. vm_compute. repeat split; discriminate. Qed.
(** A type that is made a property of itself. *)
Definition itself : list suse := [SOpen 0 (ThApi loaded); STake 1 0 to_b; STake 2 0 (to_b ++ [NField FdProperties])].
Example C86_itself :
  let s := smemory (itself ++ [SGive 2 [] (GivePut "again") 1]) in
  h_follow (fst s) [NField FdProperties; NKey "again"] (match snd s 1 with Some r => r | None => 0%nat end) = snd s 1 /\ snd s 1 <> None /\ found s 0 to_b = snd s 1 /\
  match snd s 0 with Some r => whole (fst s) r = None | None => False end.
Proof. vm_compute. repeat split; discriminate. Qed.
