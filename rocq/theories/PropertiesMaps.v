(** C01 - C09, C12 - C15: the ordered maps. *)
From Coq Require Import Permutation Sorted SpecFloat.
From Verif Require Import Base Num OMap OMapSpec OMapProofs MapFacts Keys OMapJson Slice.

(** A map built by a history that exercises every kind of operation, used by the examples. *)
Definition ex_ops : list (op string nat) :=
  [OPut "a" 1; OPut "b" 2; OPut "c" 3; OReplaceIfExists "a" 9; OPut "b" 7; ODelete "zz";
   OPutIfNotNil "d" None; OPutIfNotNil "e" (Some 5); ODelete "c"; OSerializeOrdered false].
Definition ex_map : omap string nat :=
  match sm_exec new_map ex_ops with Ok m => m | _ => new_map end.
Lemma ex_map_reachable : sm_reachable ex_map.
Proof. exists ex_ops. reflexivity. Qed.
Example ex_map_entries : entries ex_map = [("a", 9); ("b", 7); ("e", 5)].
Proof. reflexivity. Qed.

(** C01: every observation of every history is the one of a plain list of pairs (OMapSpec.v). *)
Theorem C01_map_is_association_list : forall (V : Type) (ops : list (op string V)),
  sm_run new_map ops = srun String.eqb [] ops.
Proof. exact sm_refines. Qed.
Print Assumptions C01_map_is_association_list.
Example C01_case :
  sm_run new_map (ex_ops ++ [OLen; OAt 1; OIndexOf "e"; OGet "b"; OForEach; OAt 3; OLen])
  = TObs RNone (TObs RNone (TObs RNone (TObs RNone (TObs RNone (TObs RNone (TObs RNone (TObs RNone
      (TObs RNone (TObs RNone
      (TObs (RInt 3) (TObs (REntry ("b", 7)) (TObs (RInt 2) (TObs (RVal (Some 7))
      (TObs (REntries [("a", 9); ("b", 7); ("e", 5)]) TPanic)))))))))))))).
Proof. reflexivity. Qed.

(** C02 *)
Theorem C02_keys_unique : forall (V : Type) (m : omap string V), sm_reachable m ->
  (forall i j k v w, at_ i m = Ok (k, v) -> at_ j m = Ok (k, w) -> i = j) /\
  (forall k, sm_has k m = Ok true <-> exists j v, at_ j m = Ok (k, v)) /\
  (forall k j, sm_index_of k m = Ok (Some j) <-> exists v, at_ (Z.of_nat j) m = Ok (k, v)) /\
  (forall k, sm_index_of k m = Ok None <-> sm_has k m = Ok false) /\
  (exists ks, NoDup ks /\ List.length ks = len m /\ forall k, sm_has k m = Ok true <-> In k ks).
Proof.
  exact (fun V m H => conj (sm_unique V m H) (conj (fun k => sm_has_iff V m k H)
    (conj (fun k j => sm_index_of_iff V m k j H)
    (conj (fun k => sm_index_of_none V m k H) (sm_len_keys V m H))))).
Qed.
Print Assumptions C02_keys_unique.
Example C02_case : sm_reachable ex_map /\ sm_has "b" ex_map = Ok true /\ sm_has "c" ex_map = Ok false
                   /\ sm_index_of "e" ex_map = Ok (Some 2) /\ len ex_map = 3.
Proof. exact (conj ex_map_reachable (conj eq_refl (conj eq_refl (conj eq_refl eq_refl)))). Qed.

(** C03 *)
Theorem C03_put_appends : forall (V : Type) (m : omap string V) k v, sm_reachable m ->
  exists m', sm_put k v m = Ok m' /\
    entries m' = filter (not_key V k) (entries m) ++ [(k, v)] /\
    sm_get k m' = Ok (Some v) /\
    at_ (Z.of_nat (len m') - 1) m' = Ok (k, v) /\
    (forall k', k' <> k -> sm_get k' m' = sm_get k' m) /\
    filter (not_key V k) (entries m') = filter (not_key V k) (entries m) /\
    (sm_has k m = Ok true -> len m' = len m) /\
    (sm_has k m = Ok false -> len m' = S (len m)) /\
    outOrder m' = outOrder m.
Proof. exact sm_put_spec. Qed.
Print Assumptions C03_put_appends.
Example C03_case : exists m', sm_put "a" 4 ex_map = Ok m' /\ entries m' = [("b", 7); ("e", 5); ("a", 4)].
Proof. eexists; split; reflexivity. Qed.

(** C04 *)
Theorem C04_replace_keeps_position : forall (V : Type) (m : omap string V) k v, sm_reachable m ->
  (sm_has k m = Ok true ->
     exists m', sm_replace_if_exists k v m = Ok m' /\
       sm_get k m' = Ok (Some v) /\ len m' = len m /\
       (forall k', sm_index_of k' m' = sm_index_of k' m) /\
       (forall k', k' <> k -> sm_get k' m' = sm_get k' m) /\
       (forall j e, at_ j m = Ok e -> at_ j m' = Ok (if String.eqb (fst e) k then (fst e, v) else e)) /\
       outOrder m' = outOrder m) /\
  (sm_has k m = Ok false -> sm_replace_if_exists k v m = Ok m) /\
  (sm_has k m = Ok true -> sm_replace_or_put k v m = sm_replace_if_exists k v m) /\
  (sm_has k m = Ok false -> sm_replace_or_put k v m = sm_put k v m) /\
  (sm_has k m = Ok true \/ sm_has k m = Ok false).
Proof.
  exact (fun V m k v H => conj (sm_replace_present V m k v H) (conj (sm_replace_absent V m k v H)
           (sm_replace_or_put_spec V m k v H))).
Qed.
Print Assumptions C04_replace_keeps_position.
Example C04_case : sm_has "b" ex_map = Ok true /\
  exists m', sm_replace_if_exists "b" 0 ex_map = Ok m' /\ entries m' = [("a", 9); ("b", 0); ("e", 5)].
Proof. split; [reflexivity|]. eexists; split; reflexivity. Qed.

(** C05 *)
Theorem C05_delete_removes_one : forall (V : Type) (m : omap string V) k, sm_reachable m ->
  exists m', sm_delete k m = Ok m' /\
    entries m' = filter (not_key V k) (entries m) /\
    sm_has k m' = Ok false /\
    (forall k', k' <> k -> sm_get k' m' = sm_get k' m) /\
    (sm_has k m = Ok false -> m' = m) /\
    (sm_has k m = Ok true -> S (len m') = len m) /\
    sm_delete k m' = Ok m' /\
    outOrder m' = outOrder m.
Proof. exact sm_delete_spec. Qed.
Print Assumptions C05_delete_removes_one.
Example C05_case : exists m', sm_delete "b" ex_map = Ok m' /\ entries m' = [("a", 9); ("e", 5)].
Proof. eexists; split; reflexivity. Qed.

(** C06: in no state that a history leads to does an operation panic, except At out of range. *)
Theorem C06_string_maps_never_panic : forall (V : Type) (m : omap string V) (o : op string V),
  sm_reachable m ->
  (sm_step m o = Panic <-> exists j, o = OAt j /\ (j < 0 \/ Z.of_nat (len m) <= j)%Z) /\
  sm_step m o <> Err.
Proof. exact sm_step_panic. Qed.
Print Assumptions C06_string_maps_never_panic.
Example C06_case : sm_reachable ex_map /\ sm_step ex_map (OAt 3) = Panic /\
                   sm_step ex_map (OAt 2) = Ok (ex_map, REntry ("e", 5)).
Proof. exact (conj ex_map_reachable (conj eq_refl eq_refl)). Qed.

(** C07 *)
Theorem C07_put_if_not_nil : forall (V : Type) (m : omap string V) k,
  sm_put_if_not_nil k None m = Ok m /\
  forall v, sm_put_if_not_nil k (Some v) m = sm_put k v m.
Proof. exact (fun V m k => conj (sm_put_nil V m k) (sm_put_some V m k)). Qed.
Print Assumptions C07_put_if_not_nil.
Example C07_case : exists m', sm_put_if_not_nil "a" (Some 4) ex_map = Ok m' /\
                              entries m' = [("b", 7); ("e", 5); ("a", 4)].
Proof. eexists; split; reflexivity. Qed.

(** C08: the callback is any fold over any accumulator; At(0), ..., At(Len-1) give the same list. *)
Theorem C08_for_each_in_order :
  forall (V S : Type) (g : S -> string -> V -> S) (m : omap string V) (s : S),
  exists es, map_res (fun i => at_ (Z.of_nat i) m) (seq 0 (len m)) = Ok es /\
    List.length es = len m /\
    for_each (fun k v st => Ok (g (fst st) k v, snd st)) s m
    = Ok (fold_left (fun s e => g s (fst e) (snd e)) es s, m).
Proof. exact for_each_at. Qed.
Print Assumptions C08_for_each_in_order.
Example C08_case :
  for_each (fun k v st => Ok (fst st ++ k ++ ";", snd st))%string "" ex_map = Ok ("a;b;e;", ex_map).
Proof. reflexivity. Qed.

(** C09 is false: a callback that deletes the entry it is given makes ForEach panic, and one that puts
    it again makes ForEach skip an entry. *)
Theorem C09_for_each_editing_refuted :
  exists (m : omap string nat) (acts acts' : string -> nat -> list (op string nat)) visited m',
    sm_reachable m /\
    acts = (fun k _ => [ODelete k]) /\
    for_each (edit_cb nat acts) [] m = Panic /\
    acts' = (fun k v => [OPut k v]) /\
    for_each (edit_cb nat acts') [] m = Ok (visited, m') /\
    sm_get "b" m = sm_get "b" m' /\ sm_has "b" m' = Ok true /\ ~ In "b" (map fst visited).
Proof. exact for_each_edit_counterexample. Qed.
Print Assumptions C09_for_each_editing_refuted.

(** The part of C09 that holds: callbacks that only replace values, add new keys with ReplaceOrPut or look. *)
Theorem C09_for_each_editing_partial :
  forall (V : Type) (acts : string -> V -> list (op string V)) (m : omap string V),
  sm_reachable m -> (forall k v, forallb (keeps V) (acts k v) = true) ->
  exists m' visited, for_each (edit_cb V acts) [] m = Ok (visited, m') /\
                     map fst visited = map fst (entries m).
Proof. exact for_each_edit. Qed.
Print Assumptions C09_for_each_editing_partial.
Example C09_case : sm_reachable ex_map /\
  (forall k v, forallb (keeps nat) ((fun k v => [OReplaceOrPut "new" 1; OReplaceIfExists k (v + 1)]) k v) = true).
Proof. exact (conj ex_map_reachable (fun _ _ => eq_refl)). Qed.

(** C12 *)
Theorem C12_json_of_string_maps : forall (V : Type) (m : omap string V) (enum : list (string * V)),
  sm_reachable m -> enumeration m enum ->
  (outOrder m = true -> marshal_json str_sprint m enum = JArray (entries m)) /\
  (outOrder m = false ->
     exists l, marshal_json str_sprint m enum = JObject l /\
               Permutation l (entries m) /\ StronglySorted (kle V) l) /\
  (forall m2 enum2, sm_reachable m2 -> enumeration m2 enum2 -> outOrder m = false -> outOrder m2 = false ->
     Permutation (entries m) (entries m2) ->
     marshal_json str_sprint m enum = marshal_json str_sprint m2 enum2).
Proof.
  exact (fun V m en H E => conj (json_ordered str_sprint m en)
    (conj (fun O => json_str m en H O E)
          (fun m2 en2 H2 E2 O O2 P => json_str_same m m2 en en2 H H2 O O2 P E E2))).
Qed.
Print Assumptions C12_json_of_string_maps.
Example C12_case : sm_reachable ex_map /\ outOrder ex_map = false /\
  enumeration ex_map [("e", 5); ("a", 9); ("b", 7)] /\
  marshal_json str_sprint ex_map [("e", 5); ("a", 9); ("b", 7)] = JObject [("a", 9); ("b", 7); ("e", 5)].
Proof.
  refine (conj ex_map_reachable (conj eq_refl (conj _ eq_refl))).
  exact (Permutation_cons_append [("a", 9); ("b", 7)] ("e", 5)).
Qed.

(** C13 is false: keys 1 and "1" have the same text, so one entry is lost, and which one depends on the
    enumeration order. *)
Theorem C13_any_map_json_refuted :
  forall float_text other_text,
  exists (m : omap gkey nat) en1 en2 l1 l2,
    am_reachable m /\ len m = 2 /\ enumeration m en1 /\ enumeration m en2 /\
    marshal_json (gkey_sprint float_text other_text) m en1 = JObject l1 /\
    marshal_json (gkey_sprint float_text other_text) m en2 = JObject l2 /\
    l1 <> l2 /\ List.length l1 = 1 /\ List.length l2 = 1.
Proof. exact json_any_counterexample. Qed.
Print Assumptions C13_any_map_json_refuted.

(** What holds of C13: if the texts of the keys differ, the result is the same for every enumeration and has
    one member per entry. *)
Theorem C13_any_map_json_partial :
  forall (V : Type) (sprint : gkey -> string) (m : omap gkey V) en1 en2,
  outOrder m = false -> NoDup (map (fun e => sprint (fst e)) (index m)) ->
  enumeration m en1 -> enumeration m en2 ->
  marshal_json sprint m en1 = marshal_json sprint m en2 /\
  exists l, marshal_json sprint m en1 = JObject l /\
            Permutation l (map (fun e => (sprint (fst e), snd e)) (index m)).
Proof. exact json_any_ok. Qed.
Print Assumptions C13_any_map_json_partial.
Example C13_case :
  exists m, am_exec new_map [OPut (KInt 2) 1; OPut (KStr "1") 2; OPut KNil 3; OSerializeOrdered false] = Ok m
  /\ outOrder m = false
  /\ map (fun e => gkey_sprint (fun _ => "f") (fun _ => "o") (fst e)) (index m) = ["2"; "1"; "<nil>"].
Proof. eexists; split; [reflexivity|split; reflexivity]. Qed.

(** C14 is false: a NaN key is not found again, a slice as key panics. *)
Theorem C14_any_key_refuted :
  (exists (m : omap gkey nat) k v m', am_reachable m /\ am_put k v m = Ok m' /\
     am_has k m' = Ok false /\ len m' = S (len m)) /\
  (exists (m : omap gkey nat) k, am_reachable m /\ am_has k m = Panic /\ forall v, am_put k v m = Panic).
Proof. exact any_key_counterexample. Qed.
Print Assumptions C14_any_key_refuted.

(** For all other keys (no NaN, no unhashable value) an AnyMap is the plain list of pairs. *)
Theorem C14_any_key_partial :
  forall (V : Type) (ops : list (op gkey V)), Forall op_proper ops ->
  am_run new_map ops = srun gkey_eqb [] ops.
Proof. exact am_refines. Qed.
Print Assumptions C14_any_key_partial.
Example C14_case :
  Forall op_proper [OPut (KInt 1) 1; OPut (KStr "1") 2; OPut (KFloat (S754_zero false)) 3;
                    OPut (KFloat (S754_zero true)) 4; OGet (KFloat (S754_zero false)); ODelete KNil] /\
  am_run new_map [OPut (KInt 1) 1; OPut (KStr "1") 2; OPut (KFloat (S754_zero false)) 3;
                  OPut (KFloat (S754_zero true)) 4; OGet (KFloat (S754_zero false)); OLen]
  = TObs RNone (TObs RNone (TObs RNone (TObs RNone (TObs (RVal (Some 4)) (TObs (RInt 3) TEnd))))).
Proof. split; [repeat constructor|reflexivity]. Qed.

(** C15 is false: after a delete, the copy's last entry appears twice and the deleted one is gone; IndexOf on the
    copy panics. *)
Theorem C15_copies_refuted :
  forall (grow : nat -> nat) (h0 : mem nat) (size : nat),
  exists h s h' s',
    fold_res (h_edit grow) (h_new size h0) [EPut "a" 1; EPut "b" 2; EPut "c" 3] = Ok (h, s) /\
    h_entries h s = [Some ("a", 1); Some ("b", 2); Some ("c", 3)] /\
    h_edit grow (h, s) (EDelete "a") = Ok (h', s') /\
    h_entries h' s = [Some ("b", 2); Some ("c", 3); Some ("c", 3)] /\
    exists h'' s'', h_edit grow (h', s') (EPut "d" 4) = Ok (h'', s'') /\
      h_entries h'' s = [Some ("b", 2); Some ("c", 3); Some ("d", 4)] /\
      exists h3 s3, h_edit grow (h'', s'') (EPut "e" 5) = Ok (h3, s3) /\
        h_index_of "e" h3 s = Panic.
Proof. exact copy_counterexample. Qed.
Print Assumptions C15_copies_refuted.

(** What holds of C15: the map itself is right under every growth policy; structs with storage of their own are
    not touched; and putting a new key does not change what an earlier copy enumerates. *)
Theorem C15_copies_partial :
  forall (V : Type) (grow : nat -> nat),
  (forall (h0 : mem V) size es m', fold_res o_edit new_map es = Ok m' ->
     exists h s, fold_res (h_edit grow) (h_new size h0) es = Ok (h, s) /\
       h_entries h s = map Some (ordered m') /\ hindex h s = index m') /\
  (forall e (h : mem V) s h' s' c, h_edit grow (h, s) e = Ok (h', s') ->
     arr c < List.length (arrs h) -> arr c <> arr s -> ix c <> ix s ->
     h_entries h' c = h_entries h c /\ hindex h' c = hindex h c) /\
  (forall k v (h : mem V) s m h' s' c, sim h s m -> gomap_find String.eqb k (index m) = None ->
     arr c = arr s -> hlen c <= hlen s ->
     h_edit grow (h, s) (EPut k v) = Ok (h', s') -> h_entries h' c = h_entries h c).
Proof. exact copy_positive. Qed.
Print Assumptions C15_copies_partial.
Example C15_case : exists h s,
  fold_res (h_edit (fun n => n)) (h_new 1 (mkMem [] [])) [EPut "a" 1; EPut "b" 2; EPut "c" 3; EDelete "b"] = Ok (h, s) /\
  h_entries h s = [Some ("a", 1); Some ("c", 3)] /\ List.length (arrs h) = 2.
Proof. eexists _, _; split; [reflexivity|split; reflexivity]. Qed.
