(** What the JSON of a map says (v0/pkg/raml/AnyMap.go:118-129 MarshalJSON and its siblings), compared with its YAML.

    OMapJson.v has the entries in the order in which they are written.  Here the values are followed into encoding/json.
    The characters of the text, the escapes of strings and the digits of numbers, are still encoding/json's. *)
From Coq Require Import SpecFloat Sorting.Permutation.
From Verif Require Import Base Num OMap OMapSpec OMapProofs OMapJson MapFacts Keys Yaml Values Assign AssignProofs.

(** A JSON value. *)
Inductive jval : Type :=
| JNull
| JBool (b : bool)
| JInt (z : Z)
| JFloat (f : spec_float)
| JStr (s : string)
| JArr (l : list jval)
| JObj (l : list (string * jval)).

(** ** The code *)

(** The Kind of a yaml.Node: SequenceNode is 2, MappingNode 4, ScalarNode 8. *)
Definition kind_number (n : node) : Z := match n with Scal _ _ => 8%Z | Seq _ _ => 2%Z | Map _ _ => 4%Z end.

(** json.Marshal has no numbers for the infinities and NaN: json.UnsupportedValueError *)
Definition float_json (f : spec_float) : res jval :=
  match f with S754_infinity _ | S754_nan => Err | _ => Ok (JFloat f) end.

Section Json.
  (** the text of a tag ("!!str" for TStr) *)
  Variable tag_text : tag -> string.
  (** the members of a node that Yaml.v leaves out: style, anchor, comments, line, column *)
  Variable more : node -> list (string * jval).
  (** json.Marshal on the values of which the model knows only the node they are converted to *)
  Variable other : res node -> res jval.

  (** json.Marshal on a *yaml.Node, which is a struct with exported fields and no method MarshalJSON: the fields are written.  A slice
      that was never appended to is null. *)
  Fixpoint node_json (n : node) : jval :=
    JObj ([("Kind", JInt (kind_number n)); ("Tag", JStr (tag_text (node_tag n))); ("Value", JStr (value n));
           ("Content", match n with
                       | Scal _ _ | Seq _ [] | Map _ [] => JNull
                       | Seq _ l => JArr (map node_json l)
                       | Map _ l => JArr (flat_map (fun p => [node_json (fst p); node_json (snd p)]) l)
                       end)] ++ more n).

  (** json.Marshal on the value of an entry *)
  Fixpoint value_json (v : gval) : res jval :=
    match v with
    | GNil => Ok JNull
    | GStr s => Ok (JStr s)
    | GBool b => Ok (JBool b)
    | GInt z | GUint z => Ok (JInt z)
    | GFloat f => float_json f
    | GNode n => Ok (node_json n)
    | GList l => do js <- map_res value_json l; Ok (JArr js)
    | GOther r => other r
    end.

  (** json.Marshal on []UntypedMapEntry (v0/pkg/raml/UntypedMap.go: the struct's tags are "key" and "value") and on
      map[string]interface{}; [vj] is json.Marshal on a value. *)
  Definition entry_json {V} (vj : V -> res jval) (e : string * V) : res jval :=
    do v <- vj (snd e); Ok (JObj [("key", JStr (fst e)); ("value", v)]).
  Definition member_json {V} (vj : V -> res jval) (e : string * V) : res (string * jval) :=
    do v <- vj (snd e); Ok (fst e, v).
  Definition json_json {V} (vj : V -> res jval) (j : json string V) : res jval :=
    match j with
    | JArray l => do js <- map_res (entry_json vj) l; Ok (JArr js)
    | JObject l => do ms <- map_res (member_json vj) l; Ok (JObj ms)
    end.

  (** MarshalJSON of a map with string keys; fmt.Sprint of a string is the string.  [enum] is the order in which Go enumerates [index]. *)
  Definition map_json {V} (vj : V -> res jval) (m : omap string V) (enum : list (string * V)) : res jval :=
    json_json vj (marshal_json (fun k => k) m enum).
End Json.

(** ** The specification *)

(** [shows n j]: the JSON value [j] is the value of the YAML node [n]. *)
Inductive shows {F : FloatIO} : node -> jval -> Prop :=
| shows_null t : shows (Scal TNull t) JNull
| shows_bool n b : denotes_bool n b -> shows n (JBool b)
| shows_int n z : integer_text n z -> shows n (JInt z)
| shows_float n f : denotes_float n f -> shows n (JFloat f)
| shows_str s : shows (Scal TStr s) (JStr s)
| shows_arr t l js : shows_all l js -> shows (Seq t l) (JArr js)
| shows_obj t l ms : shows_members l ms -> shows (Map t l) (JObj ms)
with shows_all {F : FloatIO} : list node -> list jval -> Prop :=
| shows_nil : shows_all [] []
| shows_cons n j l js : shows n j -> shows_all l js -> shows_all (n :: l) (j :: js)
with shows_members {F : FloatIO} : list (node * node) -> list (string * jval) -> Prop :=
| shows_mnil : shows_members [] []
| shows_mcons t k n j l ms : shows n j -> shows_members l ms -> shows_members ((Scal t k, n) :: l) ((k, j) :: ms).

(** The entries that the JSON of a map lists: an object, or an array of objects with the members "key" and "value". *)
Inductive json_entries : jval -> list (string * jval) -> Prop :=
| json_object l : json_entries (JObj l) l
| json_array l : json_entries (JArr (map (fun e => JObj [("key", JStr (fst e)); ("value", snd e)]) l)) l.

(** The entries that the YAML of a map lists: a mapping, or an ordered mapping (a sequence of mappings with one entry). *)
Inductive yaml_entries : node -> list (node * node) -> Prop :=
| yaml_mapping l : yaml_entries (Map TMap l) l
| yaml_omap l : yaml_entries (Seq TOMap (map (fun p => Map TMap [p]) l)) l.

(** The values for which both formats are meant: no nodes, no values of other types, and the floats that JSON has and whose text
    reads back (contract of [FloatIO]). *)
Inductive plain {F : FloatIO} : gval -> Prop :=
| plain_nil : plain GNil
| plain_str s : plain (GStr s)
| plain_bool b : plain (GBool b)
| plain_int z : plain (GInt z)
| plain_uint z : plain (GUint z)
| plain_float f : float_json f = Ok (JFloat f) -> denotes_float (float_node f) f -> plain (GFloat f)
| plain_list l : plain_all l -> plain (GList l)
with plain_all {F : FloatIO} : list gval -> Prop :=
| plain_anil : plain_all []
| plain_acons v l : plain v -> plain_all l -> plain_all (v :: l).

(** ** Facts *)

Scheme shows_min := Minimality for shows Sort Prop
with shows_all_min := Minimality for shows_all Sort Prop
with shows_members_min := Minimality for shows_members Sort Prop.

(** The parts of a node and of a JSON value, a key counting as one. *)
Fixpoint nsize (n : node) : nat :=
  match n with
  | Scal _ _ => 1
  | Seq _ l => Datatypes.S (list_sum (map nsize l))
  | Map _ l => Datatypes.S (list_sum (map (fun p => nsize (fst p) + nsize (snd p))%nat l))
  end.

Fixpoint jsize (j : jval) : nat :=
  match j with
  | JArr l => Datatypes.S (list_sum (map jsize l))
  | JObj l => Datatypes.S (list_sum (map (fun p => Datatypes.S (jsize (snd p))) l))
  | _ => 1
  end.

Lemma shows_size {F : FloatIO} n j : shows n j -> jsize j = nsize n.
Proof.
  intros H.
  apply (shows_min F (fun n j => jsize j = nsize n)
    (fun l js => list_sum (map jsize js) = list_sum (map nsize l))
    (fun l ms => list_sum (map (fun p => Datatypes.S (jsize (snd p))) ms) =
                 list_sum (map (fun p => nsize (fst p) + nsize (snd p))%nat l)) ); try exact H; clear; cbn; intros; auto.
  - destruct H as (s & -> & _). reflexivity.
  - destruct H as (s & -> & _). reflexivity.
  - destruct H as (t & s & -> & _). reflexivity.
Qed.

Section Facts.
  Variable tag_text : tag -> string.
  Variable more : node -> list (string * jval).
  Variable other : res node -> res jval.

  Lemma node_json_size n : (nsize n < jsize (node_json tag_text more n))%nat.
  Proof.
    assert (Q : forall n c, (nsize n < 1 + jsize c)%nat ->
      (nsize n < jsize (JObj ([("Kind", JInt (kind_number n)); ("Tag", JStr (tag_text (node_tag n))); ("Value", JStr (value n));
           ("Content", c)] ++ more n)))%nat).
    { intros m c L. cbn [app jsize map snd list_sum fold_right]. lia. }
    induction n as [t v|t l IH|t l IH] using node_ind'; cbn [node_json]; apply Q.
    - cbn. lia.
    - destruct l as [|a l]; [cbn; lia|]. cbn [nsize jsize]. rewrite map_map.
      enough (list_sum (map nsize (a :: l)) <= list_sum (map (fun x => jsize (node_json tag_text more x)) (a :: l)))%nat by lia.
      induction IH as [|x r Hx _ IH]; [apply le_n|]. cbn [map list_sum fold_right]. unfold list_sum in IH. lia.
    - destruct l as [|a l]; [cbn; lia|]. cbn [nsize jsize].
      enough (list_sum (map (fun p => nsize (fst p) + nsize (snd p)) (a :: l)) <=
        list_sum (map jsize (flat_map (fun p => [node_json tag_text more (fst p); node_json tag_text more (snd p)]) (a :: l))))%nat by lia.
      induction IH as [|x r Hx _ IH]; [apply le_n|]. cbn [map flat_map app list_sum fold_right]. unfold list_sum in IH. lia.
  Qed.

  (** The JSON of a node never is the JSON of its value. *)
  Lemma node_json_never {F : FloatIO} n : ~ shows n (node_json tag_text more n).
  Proof. intros H. apply shows_size in H. pose proof (node_json_size n). lia. Qed.

  (** [r] is the member for the entry [e]. *)
  Definition member_of {V} (vj : V -> res jval) (e : string * V) (r : string * jval) : Prop :=
    fst e = fst r /\ vj (snd e) = Ok (snd r).

  Lemma member_of_fun {V} (vj : V -> res jval) l js js' :
    Forall2 (member_of vj) l js -> Forall2 (member_of vj) l js' -> js = js'.
  Proof.
    intros H. revert js'. induction H as [|e r l js [A B] _ IH]; intros js' H'; inversion H' as [|? r' ? js2 [A' B'] H2]; subst; [reflexivity|].
    f_equal; [|apply IH; exact H2]. destruct r, r'; cbn in *. congruence.
  Qed.

  Lemma member_jsons {V} (vj : V -> res jval) l js : map_res (member_json vj) l = Ok js <-> Forall2 (member_of vj) l js.
  Proof.
    split.
    - revert js. induction l as [|e l IH]; cbn; intros js H; [injection H as <-; constructor|].
      unfold member_json at 1 in H. destruct (vj (snd e)) as [v| |] eqn:E; try discriminate. cbn in H.
      destruct (map_res (member_json vj) l) as [r| |]; try discriminate. injection H as <-. constructor; [split; [reflexivity|exact E]|auto].
    - induction 1 as [|e r l js [A B] _ IH]; cbn; [reflexivity|]. unfold member_json at 1. rewrite B. cbn. rewrite IH. cbn.
      destruct r; cbn in *; congruence.
  Qed.

  Lemma entry_jsons {V} (vj : V -> res jval) l x : map_res (entry_json vj) l = Ok x <->
    exists js, Forall2 (member_of vj) l js /\ x = map (fun e => JObj [("key", JStr (fst e)); ("value", snd e)]) js.
  Proof.
    split.
    - revert x. induction l as [|e l IH]; cbn; intros x H; [injection H as <-; exists []; split; [constructor|reflexivity]|].
      unfold entry_json at 1 in H. destruct (vj (snd e)) as [v| |] eqn:E; try discriminate. cbn in H.
      destruct (map_res (entry_json vj) l) as [r| |]; try discriminate. injection H as <-.
      destruct (IH r eq_refl) as (js & A & ->). exists ((fst e, v) :: js). split; [constructor; [split; [reflexivity|exact E]|exact A]|reflexivity].
    - intros (js & H & ->). induction H as [|e r l js [A B] _ IH]; cbn; [reflexivity|]. unfold entry_json at 1. rewrite B. cbn. rewrite IH.
      cbn. rewrite A. reflexivity.
  Qed.

  Lemma map_json_ok {V} (vj : V -> res jval) (m : omap string V) en j : sm_reachable m -> enumeration m en ->
    (map_json vj m en = Ok j <->
     exists l js, Permutation l (entries m) /\ (outOrder m = true -> l = entries m) /\ Forall2 (member_of vj) l js /\
       j = (if outOrder m then JArr (map (fun e => JObj [("key", JStr (fst e)); ("value", snd e)]) js) else JObj js) /\
       (outOrder m = false -> l = sort_keys (fill (fun k => k) en))).
  Proof.
    intros R E. rewrite entries_ordered. unfold map_json, marshal_json. destruct (outOrder m) eqn:O; cbn [json_json].
    - split.
      + intros H. destruct (map_res (entry_json vj) (ordered m)) as [x| |] eqn:X; try discriminate. injection H as <-.
        apply entry_jsons in X as (js & A & ->). exists (ordered m), js. split; [apply Permutation_refl|]. split; [reflexivity|]. split; [exact A|]. split; [reflexivity|discriminate].
      + intros (l & js & _ & L & A & -> & _). rewrite (L eq_refl) in A.
        replace (map_res (entry_json vj) (ordered m)) with (Ok (map (fun e => JObj [("key", JStr (fst e)); ("value", snd e)]) js)); [reflexivity|].
        symmetry. apply entry_jsons. exists js. auto.
    - assert (P : Permutation (sort_keys (fill (fun k => k) en)) (ordered m)).
      { rewrite sort_perm, fill_perm.
        - replace (map (fun e => (fst e, snd e)) en) with en by (clear; induction en as [|[a b] en IH]; cbn; congruence).
          unfold enumeration in E. rewrite E. apply index_entries_str. exact R.
        - apply (Permutation_NoDup (l := map fst (index m))); [apply Permutation_map; symmetry; exact E|].
          apply uniq_nodup. exact (inv_iuniq _ _ _ _ _ (sm_inv V m R)). }
      split.
      + intros H. destruct (map_res (member_json vj) (sort_keys (fill (fun k => k) en))) as [x| |] eqn:X; try discriminate. injection H as <-.
        apply member_jsons in X. exists (sort_keys (fill (fun k => k) en)), x. split; [exact P|]. split; [discriminate|]. split; [exact X|]. split; reflexivity.
      + intros (l & js & _ & _ & A & -> & L). rewrite (L eq_refl) in A. apply member_jsons in A. rewrite A. reflexivity.
  Qed.

  Lemma json_entries_fun j l l' : json_entries j l -> json_entries j l' -> l = l'.
  Proof.
    intros H H'. destruct H as [l|l]; inversion H' as [|l2 E]; subst; [reflexivity|]. clear H'. revert l' E.
    induction l as [|[a b] l IH]; intros [|[a' b'] l'] E; cbn in E; try discriminate; [reflexivity|].
    injection E as A B C. subst. f_equal. apply IH. exact C.
  Qed.

  Scheme plain_min := Minimality for plain Sort Prop
  with plain_all_min := Minimality for plain_all Sort Prop.

  Lemma plain_value {F : FloatIO} v : plain v ->
    exists n j, to_node v = Ok n /\ value_json tag_text more other v = Ok j /\ shows n j.
  Proof.
    intros H.
    apply (plain_min F (fun v => exists n j, to_node v = Ok n /\ value_json tag_text more other v = Ok j /\ shows n j)
      (fun l => exists ns js, map_res to_node l = Ok ns /\ map_res (value_json tag_text more other) l = Ok js /\ shows_all ns js));
      try exact H; clear v H.
    - do 2 eexists. repeat split. constructor.
    - intros s. do 2 eexists. repeat split. constructor.
    - intros b. do 2 eexists. repeat split. apply shows_bool. exists (print_bool b). split; [reflexivity|]. destruct b; cbn; tauto.
    - intros z. do 2 eexists. repeat split. apply shows_int. exists (print_int z). split; [reflexivity|apply decimal_value_print].
    - intros z. do 2 eexists. repeat split. apply shows_int. exists (print_int z). split; [reflexivity|apply decimal_value_print].
    - intros f A B. do 2 eexists. repeat split; [exact A|]. apply shows_float. exact B.
    - intros l _ (ns & js & A & B & C). exists (Seq TSeq ns), (JArr js). cbn. rewrite A, B. repeat split. constructor. exact C.
    - exists [], []. repeat split. constructor.
    - intros v l _ (n & j & A & B & C) _ (ns & js & D & E & G). exists (n :: ns), (j :: js). cbn. rewrite A, B, D, E.
      repeat split. constructor; assumption.
  Qed.

  (** What both formats say of a map whose values they both can say. *)
  Lemma both_say {F : FloatIO} {V} (vn : V -> res node) (vj : V -> res jval) (m : omap string V) en :
    sm_reachable m -> enumeration m en ->
    (forall e, In e (entries m) -> exists n j, vn (snd e) = Ok n /\ vj (snd e) = Ok j /\ shows n j) ->
    exists n j yl jl jl', map_to_yaml skey_node vn (view m) = Ok n /\ map_json vj m en = Ok j /\
      yaml_entries n yl /\ json_entries j jl /\ Permutation jl jl' /\ (outOrder m = true -> jl = jl') /\
      Forall2 (fun p e => fst p = str_node (fst e) /\ shows (snd p) (snd e)) yl jl'.
  Proof.
    intros R E. rewrite entries_ordered. intros H.
    assert (Q : forall l, (forall e, In e l -> exists n j, vn (snd e) = Ok n /\ vj (snd e) = Ok j /\ shows n j) ->
      exists yl jl, map_res (entry_node skey_node vn) l = Ok yl /\ Forall2 (member_of vj) l jl /\
        Forall2 (fun p e => fst p = str_node (fst e) /\ shows (snd p) (snd e)) yl jl).
    { clear. induction l as [|e l IH]; intros H; [exists [], []; repeat split; constructor|].
      destruct IH as (yl & jl & A & B & C); [intros e' I; apply H; right; exact I|].
      destruct (H e (or_introl eq_refl)) as (n & j & P1 & P2 & P3).
      exists ((str_node (fst e), n) :: yl), ((fst e, j) :: jl). 
      assert (X : entry_node skey_node vn e = Ok (str_node (fst e), n)) by (unfold entry_node; cbn; rewrite P1; reflexivity).
      cbn [map_res]. rewrite X. cbn [bind]. rewrite A. cbn [bind].
      repeat split; auto; constructor; auto. split; [reflexivity|exact P2]. }
    destruct (Q (ordered m) H) as (yl & jl0 & A & B & C).
    set (l := if outOrder m then ordered m else sort_keys (fill (fun k => k) en)).
    assert (P : Permutation (ordered m) l).
    { unfold l. destruct (outOrder m); [apply Permutation_refl|]. symmetry. rewrite sort_perm, fill_perm.
        - replace (map (fun e => (fst e, snd e)) en) with en by (clear; induction en as [|[a b] en IH]; cbn; congruence).
          unfold enumeration in E. rewrite E. apply index_entries_str. exact R.
        - apply (Permutation_NoDup (l := map fst (index m))); [apply Permutation_map; symmetry; exact E|].
          apply uniq_nodup. exact (inv_iuniq _ _ _ _ _ (sm_inv V m R)). }
    destruct (Permutation_Forall2 P B) as (jl & PJ & BJ).
    exists (if outOrder m then Seq TOMap (map (fun p => Map TMap [p]) yl) else Map TMap yl).
    exists (if outOrder m then JArr (map (fun e => JObj [("key", JStr (fst e)); ("value", snd e)]) jl) else JObj jl).
    exists yl, jl, jl0. split.
    { rewrite map_to_yaml_spec. cbn [ents oord view]. rewrite A. reflexivity. }
    split.
    { apply map_json_ok; [exact R|exact E|]. exists l, jl. rewrite entries_ordered. split; [symmetry; exact P|]. split; [unfold l; intros ->; reflexivity|].
      split; [exact BJ|]. split; [reflexivity|unfold l; intros ->; reflexivity]. }
    split; [destruct (outOrder m); constructor|]. split; [destruct (outOrder m); constructor|]. split; [symmetry; exact PJ|].
    split; [|exact C]. intros O. unfold l in BJ. rewrite O in BJ. eapply member_of_fun; eassumption.
  Qed.

  (** An entry that holds a node is in both texts, and the JSON does not say what the YAML says. *)
  Lemma nodes_differ {F : FloatIO} (m : omap string gval) en j jl k n : sm_reachable m -> enumeration m en ->
    In (k, GNode n) (entries m) -> map_json (value_json tag_text more other) m en = Ok j -> json_entries j jl ->
    exists x, In (k, x) jl /\ ~ shows n x /\ forall y, In (k, y) jl -> y = x.
  Proof.
    intros R E. rewrite entries_ordered. intros I J L. apply map_json_ok in J; [|assumption..]. rewrite entries_ordered in J. destruct J as (l & js & P & _ & M & -> & _).
    assert (js = jl) as -> by (eapply json_entries_fun; [|exact L]; destruct (outOrder m); constructor).
    assert (U : NoDup (map fst l)).
    { apply (Permutation_NoDup (l := map fst (ordered m))); [apply Permutation_map; symmetry; exact P|].
      apply uniq_nodup. exact (inv_uniq _ _ _ _ _ (sm_inv gval m R)). }
    assert (I' : In (k, GNode n) l) by (eapply Permutation_in; [symmetry; exact P|exact I]).
    exists (node_json tag_text more n). clear - U I' M. induction M as [|e r l js [A B] M IH]; [destruct I'|].
    cbn in U. inversion U as [|? ? N U']; subst. destruct I' as [->|I'].
    - cbn in A, B. injection B as B. destruct r as [a b]; cbn in *; subst a b. split; [left; reflexivity|]. split; [apply node_json_never|].
      intros y [H|H]; [congruence|]. exfalso. apply N. clear - M H. induction M as [|e r l js [A B] M IH]; [destruct H|].
      destruct H as [->|H]; [left; exact A|right; apply IH; exact H].
    - destruct (IH U' I') as (H1 & H2 & H3). split; [right; exact H1|]. split; [exact H2|]. intros y [->|H]; [|apply H3; exact H].
      exfalso. apply N. cbn in A. rewrite A. apply (in_map fst) in I'. exact I'.
  Qed.
End Facts.

(** A map that was filled with Put holds nothing but what was put. *)
Lemma puts_entries V (kvs : list (string * V)) (m m' : omap string V) e : sm_reachable m -> sm_exec m (puts kvs) = Ok m' ->
  In e (entries m') -> In e (entries m) \/ In e kvs.
Proof.
  rewrite !entries_ordered. revert m. induction kvs as [|[k v] kvs IH]; simpl; intros m R H I; [injection H as <-; auto|].
  pose proof (put_ok string V String.eqb any_hash seq_sym seq_trans k v m (sm_inv V m R) (sgood k)) as [m1 [Hp [_ [Ho Hf]]]].
  rewrite Hp in H. simpl in H. assert (R1 : sm_reachable m1).
  { destruct R as [ops Hops]. exists (ops ++ [OPut k v]). rewrite exec_app, Hops. simpl. rewrite Hp. reflexivity. }
  destruct (IH m1 R1 H I) as [A|A]; [|auto]. rewrite Ho in A. unfold sput in A. apply in_app_or in A as [A|[A|[]]]; [|auto].
  apply filter_In in A as [A _]. auto.
Qed.

(** What UnmarshalUntypedMapRAML leaves in a new map. *)
Lemma loaded_nodes t l (m : omap string gval) : read_map sm_put as_gnode new_map (Map t l) = (m, Ok tt) ->
  sm_reachable m /\ forall e, In e (entries m) -> exists p, In p l /\ denotes_string (fst p) (fst e) /\ snd e = GNode (snd p).
Proof.
  intros H. assert (N : sm_reachable (@new_map string gval)) by (exists []; reflexivity).
  destruct (read_map_spec gval as_gnode new_map N l t) as (l1 & kvs & m' & A & X & [[-> Y]|(e & l2 & -> & _ & Y)]).
  - rewrite Y in H. injection H as <-. split; [exists (puts kvs); exact X|]. intros e I.
    destruct (puts_entries _ kvs new_map m' e N X I) as [B|B]; [destruct B|].
    clear - A B. induction A as [|p kv l kvs [P Q] _ IH]; [destruct B|]. destruct B as [->|B].
    + exists p. split; [left; reflexivity|]. split; [exact P|]. injection Q as Q. auto.
    + destruct (IH B) as (p' & I & C). exists p'. split; [right; exact I|exact C].
  - rewrite Y in H. unfold failure in H. cbn in H. congruence.
Qed.
