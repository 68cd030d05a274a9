(** C10, C11, C16 - C20, C45: maps as YAML, assignment helpers, map readers, formats. *)
From Coq Require Import SpecFloat.
From Verif Require Import Base Num OMap OMapSpec OMapProofs MapFacts Keys Yaml Values Assign Formats AssignProofs.

(** A toy float codec, for the examples only. *)
#[local] Instance toy : FloatIO := {|
  float_of t s := match t with TFloat => if String.eqb s "0.0" then Some (S754_zero false) else None | _ => None end;
  float_text f := (TFloat, "0.0")
|}.

(** C10.  [entries m] is what ForEach enumerates; [ks] and [vs] are the nodes of its keys and values, in that order. *)
Theorem C10_map_to_yaml : forall K V (kn : K -> res node) (vn : V -> res node) (m : omap K V) (b : bool) ks vs,
  Forall2 (fun e k => kn (fst e) = Ok k) (entries m) ks ->
  Forall2 (fun e v => vn (snd e) = Ok v) (entries m) vs ->
  map_to_yaml kn vn (view (serialize_ordered b m)) =
    Ok (if b then Seq TOMap (map (fun p => Map TMap [p]) (combine ks vs)) else Map TMap (combine ks vs)) /\
  entries (serialize_ordered b m) = entries m.
Proof.
  exact (fun K V kn vn m b ks vs Hk Hv =>
    conj (to_yaml_complete K V kn vn m b ks vs Hk Hv)
         (eq_trans (entries_ordered (serialize_ordered b m)) (eq_sym (entries_ordered m)))).
Qed.
Print Assumptions C10_map_to_yaml.
Definition ex_any : omap gkey gval :=
  match am_exec new_map [OPut (KInt 2) (GStr "x"); OPut (KStr "k") GNil; OPut (KInt 2) (GBool true)] with
  | Ok m => m | _ => new_map end.
Example C10_case :
  map_to_yaml key_node to_node (view (serialize_ordered true ex_any)) =
    Ok (Seq TOMap [Map TMap [(str_node "k", null_node)]; Map TMap [(Scal TInt "2", Scal TBool "true")]]) /\
  map_to_yaml key_node to_node (view (serialize_ordered false ex_any)) =
    Ok (Map TMap [(str_node "k", null_node); (Scal TInt "2", Scal TBool "true")]).
Proof. split; reflexivity. Qed.

(** C11 *)
Theorem C11_string_and_untyped_maps :
  (forall m : omap string string, sm_reachable m -> outOrder m = false ->
     exists n m', map_to_yaml skey_node (fun s => Ok (str_node s)) (view m) = Ok n /\
       read_map sm_put to_str new_map n = (m', Ok tt) /\ entries m' = entries m) /\
  (forall (F : FloatIO) (m : omap string gval), sm_reachable m -> outOrder m = false ->
     forallb (fun e => is_gnode (snd e)) (entries m) = true ->
     exists n m', map_to_yaml skey_node to_node (view m) = Ok n /\
       read_map sm_put as_gnode new_map n = (m', Ok tt) /\ entries m' = entries m).
Proof. exact (conj string_map_round_trip untyped_map_round_trip). Qed.
Print Assumptions C11_string_and_untyped_maps.
Example C11_case : exists m : omap string string,
  sm_reachable m /\ outOrder m = false /\ entries m = [("b", "2"); ("", "x"); ("a", "3")].
Proof.
  eexists; split; [exists [OPut "a" "1"; OPut "b" "2"; OPut "" "x"; OPut "a" "3"; OSerializeOrdered false]; reflexivity|].
  split; reflexivity.
Qed.

(** C16.  [all_or_nothing], [denotes_...] are in AssignProofs.v. *)
Theorem C16_helpers_all_or_nothing : forall F : FloatIO,
  all_or_nothing denotes_bool (fun b => b) as_bool /\
  all_or_nothing denotes_bool Some as_bool_ptr /\
  all_or_nothing denotes_string (fun s => s) as_string /\
  all_or_nothing denotes_string Some as_string_ptr /\
  all_or_nothing denotes_strings Some as_string_list /\
  all_or_nothing denotes_int Some as_int64_ptr /\
  all_or_nothing denotes_float Some as_float64_ptr /\
  all_or_nothing denotes_int uint_of_int64 to_uint /\
  all_or_nothing denotes_int (fun z => Some (uint_of_int64 z)) as_uint_ptr.
Proof. exact helpers_all_or_nothing. Qed.
Print Assumptions C16_helpers_all_or_nothing.
Example C16_case :
  as_string_list (Seq TSeq [str_node "a"; int_node 3; str_node "b"]) (Some ["old"]) = (Some ["old"], Err) /\
  as_string_list (Seq TSeq [str_node "a"; str_node "b"]) (Some ["old"]) = (Some ["a"; "b"], Ok tt).
Proof. split; reflexivity. Qed.

(** C17, for every reader of values [dec] and every map reached by a history.  [accepts], [puts], [failure] are in AssignProofs.v. *)
Theorem C17_map_readers :
  (forall V (dec : node -> res V) (m : omap string V), sm_reachable m -> forall l t,
   exists l1 kvs m',
     Forall2 (accepts dec) l1 kvs /\ sm_exec m (puts kvs) = Ok m' /\
     ((l = l1 /\ read_map sm_put dec m (Map t l) = (m', Ok tt)) \/
      exists e l2, l = l1 ++ e :: l2 /\ (forall kv, ~ accepts dec e kv) /\
                   read_map sm_put dec m (Map t l) = (m', failure dec e))) /\
  (forall V (dec : node -> res V) (m : omap string V) n, is_map n = false ->
     read_map sm_put dec m n = (m, Err)).
Proof. exact (conj read_map_spec read_map_not_map). Qed.
Print Assumptions C17_map_readers.
Example C17_case : exists m',
  read_map sm_put to_str new_map
    (Map TMap [(str_node "a", str_node "1"); (str_node "b", str_node "2"); (str_node "a", str_node "3");
               (str_node "c", int_node 4); (str_node "d", str_node "5")]) = (m', Err) /\
  entries m' = [("b", "2"); ("a", "3")].
Proof. eexists; split; reflexivity. Qed.

(** C18 *)
Theorem C18_strings_only :
  (forall n old s, as_string n old = (s, Ok tt) <-> denotes_string n s) /\
  (forall n old s, as_string_ptr n old = (Some s, Ok tt) <-> denotes_string n s) /\
  (forall n old l, as_string_list n old = (Some l, Ok tt) <-> denotes_strings n l).
Proof. exact strings_only. Qed.
Print Assumptions C18_strings_only.
Example C18_case :
  denotes_string (Scal TStr "42") "42" /\ (forall s, ~ denotes_string (Scal TInt "42") s) /\
  denotes_strings (Seq TSeq [str_node "b"; str_node "a"]) ["b"; "a"].
Proof.
  split; [split; reflexivity|split]; [intros s [H _]; discriminate|].
  exists TSeq, [str_node "b"; str_node "a"]. repeat constructor.
Qed.

(** C19 is false: a negative integer is accepted and another number stored. *)
Theorem C19_unsigned_refuted :
  exists n z, integer_text n z /\ forall old, exists v, to_uint n old = (v, Ok tt) /\ v <> z.
Proof. exact unsigned_refuted. Qed.
Print Assumptions C19_unsigned_refuted.
(** What holds of C19: non-negative integers are stored exactly or rejected; negative ones wrap. *)
Theorem C19_unsigned_partial :
  (forall n z old, integer_text n z -> (0 <= z)%Z ->
     (to_uint n old = (z, Ok tt) /\ (z <= 2 ^ 63 - 1)%Z) \/ (to_uint n old = (old, Err) /\ (2 ^ 63 - 1 < z)%Z)) /\
  (forall n z old, integer_text n z -> (- 2 ^ 63 <= z < 0)%Z -> to_uint n old = ((z + 2 ^ 64)%Z, Ok tt)) /\
  (forall n (old : option Z) d,
     as_uint_ptr n old = match to_uint n d with (v, Ok _) => (Some v, Ok tt) | (_, e) => (old, e) end).
Proof. exact (conj unsigned_exact (conj unsigned_wraps as_uint_ptr_to_uint)). Qed.
Print Assumptions C19_unsigned_partial.
Example C19_case : to_uint (int_node 7) 0 = (7%Z, Ok tt) /\ to_uint (int_node (-1)) 0 = (18446744073709551615%Z, Ok tt).
Proof. split; reflexivity. Qed.

(** C20 *)
Theorem C20_integers_exact :
  (forall s z old, decimal_value s = Some z ->
     ((- 2 ^ 63 <= z <= 2 ^ 63 - 1)%Z -> as_int64_ptr (Scal TInt s) old = (Some z, Ok tt)) /\
     (~ (- 2 ^ 63 <= z <= 2 ^ 63 - 1)%Z -> as_int64_ptr (Scal TInt s) old = (old, Err))) /\
  (forall n old v, as_int64_ptr n old = (v, Ok tt) ->
     exists s z, n = Scal TInt s /\ decimal_value s = Some z /\ (- 2 ^ 63 <= z <= 2 ^ 63 - 1)%Z /\ v = Some z) /\
  (forall z old, (- 2 ^ 63 <= z <= 2 ^ 63 - 1)%Z -> as_int64_ptr (int_node z) old = (Some z, Ok tt)).
Proof. exact (conj int_facet_exact (conj int_facet_only int_facet_round_trip)). Qed.
Print Assumptions C20_integers_exact.
Example C20_case :
  as_int64_ptr (Scal TInt "-9223372036854775808") None = (Some (- 2 ^ 63)%Z, Ok tt) /\
  as_int64_ptr (Scal TInt "9223372036854775808") (Some 1%Z) = (Some 1%Z, Err) /\
  as_int64_ptr (Scal TInt "0x10") None = (None, Err).
Proof. repeat split; reflexivity. Qed.

(** C45 *)
Theorem C45_formats_verbatim :
  (forall n f, (date_format_hat n = Ok f <-> denotes_string n f) /\
               (integer_format_hat n = Ok f <-> denotes_string n f) /\
               (number_format_hat n = Ok f <-> denotes_string n f)) /\
  (forall n, date_format_hat n <> Panic /\ integer_format_hat n <> Panic /\ number_format_hat n <> Panic) /\
  (forall f, date_format_hat (format_to_yaml f) = Ok f /\ integer_format_hat (format_to_yaml f) = Ok f /\
             number_format_hat (format_to_yaml f) = Ok f) /\
  (forall known, all_or_nothing denotes_string (fun s => s) (format_unmarshal known)) /\
  all_or_nothing denotes_string (fun s => s) number_format_unmarshal.
Proof. exact formats_verbatim. Qed.
Print Assumptions C45_formats_verbatim.
Example C45_case : date_format_hat (str_node "rfc2616") = Ok "rfc2616" /\ date_format_hat (str_node "my own") = Ok "my own"
  /\ integer_format_hat (int_node 8) = Err.
Proof. repeat split; reflexivity. Qed.
