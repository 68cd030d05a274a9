(** More about C09, C13 and C14: exactly which callbacks, maps and keys misbehave. *)
From Coq Require Import SpecFloat Sorting.Permutation.
From Verif Require Import Base Num OMap OMapSpec OMapProofs OMapJson Keys MapFacts MapExact.

(** C09 is false for every map with more than one entry: a callback that deletes the entry it is given makes ForEach panic exactly for them. *)
Theorem C09_deleting_refuted (V : Type) (m : omap string V) : sm_reachable m ->
  (for_each (edit_cb V (fun k _ => [ODelete k])) [] m = Panic <-> (2 <= len m)%nat) /\
  ((len m < 2)%nat -> exists m', for_each (edit_cb V (fun k _ => [ODelete k])) [] m = Ok (entries m, m') /\ len m' = 0%nat).
Proof. exact (each_delete m). Qed.
Print Assumptions C09_deleting_refuted.
(** ... and for every such map a callback that puts the entry it is given again is never given the second entry, although it is called as often
    as there are entries, and the map has the same entries before and after. *)
Theorem C09_putting_refuted (V : Type) (m : omap string V) e0 e1 rest : sm_reachable m -> entries m = e0 :: e1 :: rest ->
  exists m' visited, for_each (edit_cb V (fun k v => [OPut k v])) [] m = Ok (visited, m') /\
    Permutation (entries m') (entries m) /\ List.length visited = len m /\ ~ In (fst e1) (map fst visited).
Proof. exact (each_put m e0 e1 rest). Qed.
Print Assumptions C09_putting_refuted.
(** What holds for every callback that deletes nothing (and calls no At, which can panic itself): ForEach does not panic, and calls it as often
    as the map had entries. *)
Theorem C09_deleting_nothing_partial (V : Type) (acts : string -> V -> list (op string V)) (m : omap string V) : sm_reachable m ->
  (forall k v, forallb deletes_nothing (acts k v) = true) ->
  exists m' visited, for_each (edit_cb V acts) [] m = Ok (visited, m') /\ List.length visited = len m.
Proof.
  intros R G. destruct (each_grow_loop acts (len m) G 0 m [] (sm_inv V m R)) as (m' & vis & H & L); [lia|]. exists m', vis. auto.
Qed.
Print Assumptions C09_deleting_nothing_partial.
Example C09_exact_case :
  exists m, sm_exec new_map [OPut "a" 1; OPut "b" 2; OPut "c" 3] = Ok m /\ entries m = [("a", 1); ("b", 2); ("c", 3)] /\
    (exists m', for_each (edit_cb nat (fun k v => [OPut k v])) [] m = Ok ([("a", 1); ("c", 3); ("c", 3)], m')) /\
    forallb (@deletes_nothing nat) [OPut "a" 1; OReplaceIfExists "b" 2; OIndexOf "c"] = true.
Proof.
  eexists. split; [reflexivity|]. split; [reflexivity|]. split; [|reflexivity]. eexists. vm_compute. reflexivity.
Qed.

(** C13: the JSON text of a map that is written as an object depends on nothing but the map exactly when keys with the same text have the
    same value. *)
Theorem C13_deterministic_partial (V : Type) (sprint : gkey -> string) (m : omap gkey V) : outOrder m = false ->
  ((forall en1 en2, enumeration m en1 -> enumeration m en2 -> marshal_json sprint m en1 = marshal_json sprint m en2) <->
   (forall k v k' v', In (k, v) (index m) -> In (k', v') (index m) -> sprint k = sprint k' -> v = v')).
Proof.
  intros O. rewrite (json_agree sprint m O). unfold agree. split.
  - intros H k v k' v' I I' T. exact (H (k, v) (k', v') I I' T).
  - intros H [k v] [k' v'] I I' T. exact (H k v k' v' I I' T).
Qed.
Print Assumptions C13_deterministic_partial.
(** ... and it has a member for every entry exactly when no two keys have the same text. *)
Theorem C13_complete_partial (V : Type) (sprint : gkey -> string) (m : omap gkey V) en : outOrder m = false -> enumeration m en ->
  exists l, marshal_json sprint m en = JObject l /\ (List.length l = List.length (index m) <-> NoDup (map (fun e => sprint (fst e)) (index m))).
Proof. exact (json_complete sprint m en). Qed.
Print Assumptions C13_complete_partial.
Example C13_exact_case :
  exists m, am_exec new_map [OPut (KInt 1) 7; OPut (KStr "1") 7; OSerializeOrdered false] = Ok m /\ outOrder m = false /\
    index m = [(KInt 1, 7); (KStr "1", 7)] /\
    marshal_json (gkey_sprint (fun _ => "") (fun _ => "")) m (index m) = JObject [("1", 7)].
Proof. eexists. split; [reflexivity|]. split; [reflexivity|]. split; vm_compute; reflexivity. Qed.

(** C14 is false for every key that cannot be hashed, and for NaN, in every map: Put and Has panic, or the key that was put is not found. *)
Theorem C14_other_keys_refuted (V : Type) (k : gkey) (m : omap gkey V) : gkey_proper k = false ->
  (forall v, am_put k v m = Panic /\ am_has k m = Panic) \/
  (forall v, exists m', am_put k v m = Ok m' /\ am_has k m' = Ok false /\ len m' = S (len m)).
Proof. exact (improper_key V k m). Qed.
Print Assumptions C14_other_keys_refuted.
Example C14_other_keys_case : gkey_proper (KUnhash 0) = false /\ gkey_proper (KFloat S754_nan) = false.
Proof. split; reflexivity. Qed.
