(** Facts about the assignment helpers and map readers (C10, C11, C16 - C20, C45). *)
From Coq Require Import SpecFloat.
From Verif Require Import Base Num OMap OMapSpec OMapProofs MapFacts Keys Yaml Values Assign Formats.

(** ** Values of nodes, in words independent of the readers *)

Definition denotes_string (n : node) (s : string) : Prop := node_tag n = TStr /\ value n = s.
(** the texts that strconv.ParseBool documents *)
Definition bool_text (s : string) (b : bool) : Prop :=
  if b then In s ["1"; "t"; "T"; "TRUE"; "true"; "True"] else In s ["0"; "f"; "F"; "FALSE"; "false"; "False"].
Definition denotes_bool (n : node) (b : bool) : Prop :=
  exists s, n = Scal TBool s /\ bool_text s b.
(** a node with the tag !!int whose text is a decimal numeral for [z] *)
Definition integer_text (n : node) (z : Z) : Prop :=
  exists s, n = Scal TInt s /\ decimal_value s = Some z.
Definition denotes_int (n : node) (z : Z) : Prop :=
  integer_text n z /\ (- 2 ^ 63 <= z <= 2 ^ 63 - 1)%Z.
Definition denotes_float {F : FloatIO} (n : node) (f : spec_float) : Prop :=
  exists t s, n = Scal t s /\ float_of t s = Some f.
Definition denotes_strings (n : node) (l : list string) : Prop :=
  exists t ns, n = Seq t ns /\ Forall2 denotes_string ns l.

(** All or nothing: either the node has a value and the target is [f] of it, or it has none, an error is
    returned and the target is untouched. *)
Definition all_or_nothing {A B} (denotes : node -> A -> Prop) (f : A -> B) (h : node -> B -> B * res unit) : Prop :=
  forall n old,
    (exists a, denotes n a /\ h n old = (f a, Ok tt)) \/
    ((forall a, ~ denotes n a) /\ h n old = (old, Err)).

Lemma existsb_In s l : existsb (String.eqb s) l = true <-> In s l.
Proof.
  rewrite existsb_exists. split.
  - intros [x [H E]]. apply String.eqb_eq in E. subst x. exact H.
  - intros H. exists s. split; [exact H|apply String.eqb_refl].
Qed.
Lemma bool_text_iff s b : parse_bool s = Some b <-> bool_text s b.
Proof.
  unfold parse_bool, bool_text. destruct (existsb (String.eqb s) ["1"; "t"; "T"; "TRUE"; "true"; "True"]) eqn:E1.
  - apply existsb_In in E1. destruct b; [split; auto|]. split; [discriminate|]. intros H. repeat destruct E1 as [<-|E1]; try destruct E1; repeat destruct H as [H|H]; try discriminate H; destruct H.
  - destruct (existsb (String.eqb s) ["0"; "f"; "F"; "FALSE"; "false"; "False"]) eqn:E2.
    + destruct b; [|apply existsb_In in E2; split; auto]. split; [discriminate|]. intros H. apply existsb_In in H. congruence.
    + split; [discriminate|]. intros H. destruct b; apply existsb_In in H; congruence.
Qed.
Lemma denotes_bool_iff n b : to_bool n = Ok b <-> denotes_bool n b.
Proof. rewrite to_bool_ok. unfold denotes_bool. split; intros [s [E H]]; exists s; (split; [exact E|]); apply bool_text_iff; exact H. Qed.

Lemma denotes_string_iff n s : to_str n = Ok s <-> denotes_string n s.
Proof. apply to_str_ok. Qed.

Lemma denotes_int_iff n z : to_int n = Ok z <-> denotes_int n z.
Proof.
  rewrite to_int_ok. unfold denotes_int, integer_text. split.
  - intros [s [-> H]]. apply parse_int64_iff in H as [H1 H2].
    split; [exists s; auto|exact H2].
  - intros [[s [-> H]] Hr]. exists s; split; [reflexivity|].
    apply parse_int64_iff. split; [exact H|exact Hr].
Qed.

Lemma denotes_float_iff {F : FloatIO} n f : to_float n = Ok f <-> denotes_float n f.
Proof.
  unfold denotes_float. split.
  - destruct n as [t s| |]; simpl; try discriminate. intros H; apply opt_res_ok in H; eauto.
  - intros [t [s [-> H]]]; simpl; rewrite H; reflexivity.
Qed.

Lemma assign_with_all {A B} (denotes : node -> A -> Prop) conv (f : A -> B) :
  (forall n a, conv n = Ok a <-> denotes n a) -> (forall n, conv n <> Panic) ->
  all_or_nothing denotes f (assign_with conv f).
Proof.
  intros H Hp n old. unfold assign_with. destruct (conv n) as [a| |] eqn:E.
  - left. exists a. split; [apply H; exact E|reflexivity].
  - right. split; [|reflexivity]. intros a Ha. apply H in Ha. congruence.
  - destruct (Hp n E).
Qed.

Lemma to_int_not_panic n : to_int n <> Panic.
Proof. destruct n as [[] s| |]; simpl; try discriminate. apply opt_res_not_panic. Qed.
Lemma to_bool_not_panic n : to_bool n <> Panic.
Proof. destruct n as [[] s| |]; simpl; try discriminate. apply opt_res_not_panic. Qed.
Lemma to_float_not_panic {F : FloatIO} n : to_float n <> Panic.
Proof. destruct n as [t s| |]; simpl; try discriminate. apply opt_res_not_panic. Qed.
Lemma to_scalar_not_panic {F : FloatIO} n : to_scalar n <> Panic.
Proof.
  destruct n as [[] s| |]; simpl; try discriminate;
    match goal with |- context [opt_res ?o] => destruct o; discriminate end.
Qed.

Lemma string_list_loop l acc :
  (exists l', Forall2 denotes_string l l' /\ loop string_list_step acc l = (acc ++ l', Ok tt)) \/
  ((forall l', ~ Forall2 denotes_string l l') /\ exists tmp, loop string_list_step acc l = (tmp, Err)).
Proof.
  revert acc. induction l as [|a l IH]; intros acc.
  - left. exists []. split; [constructor|]. rewrite app_nil_r. reflexivity.
  - simpl. unfold string_list_step at 1 3. destruct (to_str a) as [s| |] eqn:E.
    + destruct (IH (acc ++ [s])) as [[l' [Hl E']]|[Hl [tmp E']]].
      * left. exists (s :: l'). split; [constructor; [apply denotes_string_iff; exact E|exact Hl]|].
        rewrite E', <- app_assoc. reflexivity.
      * right. split; [|exists tmp; exact E'].
        intros l' H. inversion H; subst. eapply Hl; eassumption.
    + right. split; [|eexists; reflexivity]. intros l' H. inversion H as [|x y xs ys Hd Hs E1 E2]; subst.
      apply denotes_string_iff in Hd. congruence.
    + destruct (to_str_not_panic a E).
Qed.

Lemma as_string_list_all : all_or_nothing denotes_strings Some as_string_list.
Proof.
  intros n old. unfold as_string_list, seq_for_each. destruct n as [t v|t l|t l].
  - right. split; [|reflexivity]. intros a [t' [ns [E _]]]. discriminate.
  - destruct (string_list_loop l []) as [[l' [Hl E]]|[Hl [tmp E]]]; rewrite E.
    + left. exists l'. split; [exists t, l; auto|reflexivity].
    + right. split; [|reflexivity]. intros a [t' [ns [E' Ha]]]. injection E' as _ <-. exact (Hl _ Ha).
  - right. split; [|reflexivity]. intros a [t' [ns [E _]]]. discriminate.
Qed.

Lemma helpers_all_or_nothing (F : FloatIO) :
  all_or_nothing denotes_bool (fun b => b) as_bool /\
  all_or_nothing denotes_bool Some as_bool_ptr /\
  all_or_nothing denotes_string (fun s => s) as_string /\
  all_or_nothing denotes_string Some as_string_ptr /\
  all_or_nothing denotes_strings Some as_string_list /\
  all_or_nothing denotes_int Some as_int64_ptr /\
  all_or_nothing denotes_float Some as_float64_ptr /\
  all_or_nothing denotes_int uint_of_int64 to_uint /\
  all_or_nothing denotes_int (fun z => Some (uint_of_int64 z)) as_uint_ptr.
Proof.
  repeat split; try (apply as_string_list_all);
    apply assign_with_all; auto using denotes_bool_iff, denotes_string_iff, denotes_int_iff,
      to_bool_not_panic, to_str_not_panic, to_int_not_panic.
  - intros; apply denotes_float_iff.
  - intros; apply to_float_not_panic.
Qed.

(** ** C19: unsigned facets *)

Lemma uint_in_range z : (- 2 ^ 63 <= z <= 2 ^ 63 - 1)%Z -> (uint_of_int64 z = z <-> (0 <= z)%Z).
Proof.
  intros H. unfold uint_of_int64. split.
  - intros E. rewrite <- E. apply Z.mod_pos_bound. reflexivity.
  - intros H0. apply Z.mod_small. lia.
Qed.

Lemma unsigned_exact n z old : integer_text n z -> (0 <= z)%Z ->
  (to_uint n old = (z, Ok tt) /\ (z <= 2 ^ 63 - 1)%Z) \/ (to_uint n old = (old, Err) /\ (2 ^ 63 - 1 < z)%Z).
Proof.
  intros Hn Hz. destruct Hn as [s [-> Hs]]. unfold to_uint, assign_with.
  destruct (Z_le_gt_dec z (2 ^ 63 - 1)) as [H|H].
  - left. assert (to_int (Scal TInt s) = Ok z) as ->.
    { apply denotes_int_iff. split; [exists s; auto|lia]. }
    split; [|exact H]. f_equal. apply uint_in_range; lia.
  - right. destruct (to_int (Scal TInt s)) as [a| |] eqn:E.
    + apply denotes_int_iff in E as [[s' [E1 E2]] Hr]. injection E1 as <-. rewrite Hs in E2.
      injection E2 as <-. lia.
    + split; [reflexivity|lia].
    + destruct (to_int_not_panic _ E).
Qed.

Lemma unsigned_wraps n z old : integer_text n z -> (- 2 ^ 63 <= z < 0)%Z ->
  to_uint n old = ((z + 2 ^ 64)%Z, Ok tt).
Proof.
  intros Hn Hz. unfold to_uint, assign_with.
  assert (to_int n = Ok z) as -> by (apply denotes_int_iff; split; [exact Hn|lia]).
  f_equal. apply uint_of_int64_neg; unfold min_int64; lia.
Qed.

Lemma as_uint_ptr_to_uint n (old : option Z) d :
  as_uint_ptr n old = match to_uint n d with (v, Ok _) => (Some v, Ok tt) | (_, e) => (old, e) end.
Proof. unfold as_uint_ptr, to_uint, assign_with. destruct (to_int n); reflexivity. Qed.

(** ** C20: integer facets *)

Lemma int_text_node z : integer_text (int_node z) z.
Proof. exists (print_int z). split; [reflexivity|apply decimal_value_print]. Qed.

Lemma int_facet_exact s z old : decimal_value s = Some z ->
  ((- 2 ^ 63 <= z <= 2 ^ 63 - 1)%Z -> as_int64_ptr (Scal TInt s) old = (Some z, Ok tt)) /\
  (~ (- 2 ^ 63 <= z <= 2 ^ 63 - 1)%Z -> as_int64_ptr (Scal TInt s) old = (old, Err)).
Proof.
  intros Hs. unfold as_int64_ptr, assign_with. split; intros H.
  - assert (to_int (Scal TInt s) = Ok z) as ->; [|reflexivity].
    apply denotes_int_iff. split; [exists s; auto|lia].
  - destruct (to_int (Scal TInt s)) as [a| |] eqn:E.
    + apply denotes_int_iff in E as [[s' [E1 E2]] Hr]. injection E1 as <-. rewrite Hs in E2.
      injection E2 as <-. contradiction.
    + reflexivity.
    + destruct (to_int_not_panic _ E).
Qed.

Lemma int_facet_only n old v : as_int64_ptr n old = (v, Ok tt) ->
  exists s z, n = Scal TInt s /\ decimal_value s = Some z /\ (- 2 ^ 63 <= z <= 2 ^ 63 - 1)%Z /\ v = Some z.
Proof.
  unfold as_int64_ptr, assign_with. destruct (to_int n) as [z| |] eqn:E; try discriminate.
  intros H; injection H as <-. apply denotes_int_iff in E as [[s [-> Hs]] Hr]. exists s, z. auto.
Qed.

Lemma int_facet_round_trip z old : (- 2 ^ 63 <= z <= 2 ^ 63 - 1)%Z ->
  as_int64_ptr (int_node z) old = (Some z, Ok tt).
Proof. intros H. apply int_facet_exact; [apply decimal_value_print|exact H]. Qed.

(** ** C17: map readers *)

(** The pair is acceptable and stands for the entry [kv]. *)
Definition accepts {V} (dec : node -> res V) (e : node * node) (kv : string * V) : Prop :=
  denotes_string (fst e) (fst kv) /\ dec (snd e) = Ok (snd kv).

Definition puts {V} (kvs : list (string * V)) : list (op string V) :=
  map (fun kv => OPut (fst kv) (snd kv)) kvs.

(** How a reader fails on a bad pair: an error, except that a panic of the value's reader goes through. *)
Definition failure {V} (dec : node -> res V) (e : node * node) : res unit :=
  match dec (snd e) with
  | Panic => if is_string (fst e) then Panic else Err
  | _ => Err
  end.

Lemma read_map_spec V (dec : node -> res V) (m : omap string V) :
  sm_reachable m -> forall l t,
  exists l1 kvs m',
    Forall2 (accepts dec) l1 kvs /\ sm_exec m (puts kvs) = Ok m' /\
    ((l = l1 /\ read_map sm_put dec m (Map t l) = (m', Ok tt)) \/
     exists e l2, l = l1 ++ e :: l2 /\ (forall kv, ~ accepts dec e kv) /\
                  read_map sm_put dec m (Map t l) = (m', failure dec e)).
Proof.
  intros Hm l t. simpl. revert m Hm.
  induction l as [|e l IH]; intros m Hm.
  - exists [], [], m. split; [constructor|]. split; [reflexivity|]. left; auto.
  - unfold loop; fold (loop (read_pair sm_put dec)). unfold read_pair.
    assert (Hbad : (forall kv, ~ accepts dec e kv) ->
      exists l1 kvs m', Forall2 (accepts dec) l1 kvs /\ sm_exec m (puts kvs) = Ok m' /\
      ((e :: l = l1 /\ (m, failure dec e) = (m', Ok tt)) \/
       exists e0 l2, e :: l = l1 ++ e0 :: l2 /\ (forall kv, ~ accepts dec e0 kv) /\
         (m, failure dec e) = (m', failure dec e0))).
    { intros H. exists [], [], m. split; [constructor|]. split; [reflexivity|]. right.
      exists e, l. auto. }
    destruct (to_str (fst e)) as [k| |] eqn:Ek.
    + destruct (dec (snd e)) as [v| |] eqn:Ev.
      * destruct (sm_put_spec V m k v Hm) as [m1 [Hp _]]. rewrite Hp.
        assert (Hm1 : sm_reachable m1).
        { destruct Hm as [ops Hops]. exists (ops ++ [OPut k v]). rewrite exec_app, Hops. simpl.
          rewrite Hp. reflexivity. }
        destruct (IH m1 Hm1) as [l1 [kvs [m' [Ha [He Hr]]]]].
        exists (e :: l1), ((k, v) :: kvs), m'. split; [constructor; [|exact Ha]|split].
        -- split; simpl; [apply denotes_string_iff; exact Ek|exact Ev].
        -- simpl. rewrite Hp. simpl. exact He.
        -- destruct Hr as [[-> Hr]|[e0 [l2 [-> [Hn Hr]]]]]; [left; auto|right].
           exists e0, l2. auto.
      * assert (Hf : failure dec e = Err) by (unfold failure; rewrite Ev; reflexivity).
        rewrite Hf in Hbad. apply Hbad. intros kv [_ H]. congruence.
      * assert (Hf : failure dec e = Panic).
        { unfold failure; rewrite Ev. unfold to_str in Ek. destruct (is_string (fst e)); [reflexivity|discriminate]. }
        rewrite Hf in Hbad. apply Hbad. intros kv [_ H]. congruence.
    + assert (Hf : failure dec e = Err).
      { unfold failure, to_str in *. destruct (is_string (fst e)); [discriminate|]. destruct (dec (snd e)); reflexivity. }
      rewrite Hf in Hbad. apply Hbad. intros kv [H _]. apply denotes_string_iff in H. congruence.
    + destruct (to_str_not_panic _ Ek).
Qed.

Lemma read_map_not_map V (dec : node -> res V) (m : omap string V) n :
  is_map n = false -> read_map sm_put dec m n = (m, Err).
Proof. destruct n; simpl; [reflexivity..|discriminate]. Qed.

(** The list version is the concrete version seen through [view]. *)
Lemma read_amap_view V (dec : node -> res V) (m : omap string V) n : sm_reachable m ->
  read_amap dec (view m) n =
  match read_map sm_put dec m n with (m', Ok _) => Ok (view m') | (_, Err) => Err | (_, Panic) => Panic end.
Proof.
  intros Hm. unfold read_amap, read_map, map_fold, map_for_each. destruct n as [|t l|t l]; try reflexivity.
  revert m Hm. induction l as [|e l IH]; intros m Hm; [reflexivity|].
  simpl. unfold read_amap_pair at 1. unfold read_pair at 1.
  destruct (to_str (fst e)) as [k| |]; simpl; try reflexivity.
  destruct (dec (snd e)) as [v| |]; simpl; try reflexivity.
  pose proof (put_ok string V String.eqb any_hash seq_sym seq_trans k v m (sm_inv V m Hm) (sgood k)) as
    [m1 [Hp [_ [Ho Hf]]]]. rewrite Hp.
  rewrite <- IH.
  - unfold view, mput; simpl. rewrite Ho, Hf. reflexivity.
  - destruct Hm as [ops Hops]. exists (ops ++ [OPut k v]). rewrite exec_app, Hops. simpl.
    rewrite Hp. reflexivity.
Qed.

(** ** C10 and C11 *)

Lemma map_to_yaml_spec K V (kn : K -> res node) (vn : V -> res node) (m : amap K V) :
  map_to_yaml kn vn m =
  (do l <- map_res (entry_node kn vn) (ents m);
   Ok (if oord m then Seq TOMap (map (fun p => Map TMap [p]) l) else Map TMap l)).
Proof.
  unfold map_to_yaml. destruct (oord m); [|reflexivity].
  induction (ents m) as [|e l IH]; [reflexivity|]. simpl.
  destruct (entry_node kn vn e) as [p| |]; simpl; try reflexivity.
  destruct (map_res (entry_node kn vn) l) as [r| |]; simpl in *.
  - apply bind_ok in IH as [l' [El E]]. injection E as ->. rewrite El. reflexivity.
  - destruct (map_res _ l); simpl in *; [discriminate|reflexivity|discriminate].
  - destruct (map_res _ l); simpl in *; [discriminate|discriminate|reflexivity].
Qed.

Lemma to_yaml_complete K V (kn : K -> res node) (vn : V -> res node) (m : omap K V) (b : bool) ks vs :
  Forall2 (fun e k => kn (fst e) = Ok k) (entries m) ks ->
  Forall2 (fun e v => vn (snd e) = Ok v) (entries m) vs ->
  map_to_yaml kn vn (view (serialize_ordered b m)) =
  Ok (if b then Seq TOMap (map (fun p => Map TMap [p]) (combine ks vs)) else Map TMap (combine ks vs)).
Proof.
  rewrite entries_ordered. intros Hk Hv. rewrite map_to_yaml_spec.
  assert (map_res (entry_node kn vn) (ents (view (serialize_ordered b m))) = Ok (combine ks vs)) as ->; [|reflexivity].
  unfold view, serialize_ordered; simpl. revert vs Hv. induction Hk as [|e k l ks He _ IH]; intros vs Hv; inversion Hv; subst; [reflexivity|].
  simpl. unfold entry_node at 1. rewrite He. simpl.
  match goal with H : vn (snd e) = _ |- _ => rewrite H end. simpl.
  erewrite IH by eassumption. reflexivity.
Qed.

(** The puts of a list with distinct keys rebuild it. *)
Lemma exec_puts_nodup V (l : list (string * V)) : NoDup (map fst l) ->
  forall acc (m : omap string V), sm_reachable m -> ordered m = acc ->
  NoDup (map fst (acc ++ l)) ->
  exists m', sm_exec m (puts l) = Ok m' /\ ordered m' = acc ++ l /\ outOrder m' = outOrder m.
Proof.
  induction l as [|[k v] l IH]; intros Hnd acc m Hm Ha Hnd2.
  - exists m. rewrite app_nil_r. auto.
  - simpl.
    pose proof (put_ok string V String.eqb any_hash seq_sym seq_trans k v m (sm_inv V m Hm) (sgood k)) as
      [m1 [Hp [_ [Ho Hf]]]]. rewrite Hp. cbn [bind upd fst].
    assert (Hm1 : sm_reachable m1).
    { destruct Hm as [ops Hops]. exists (ops ++ [OPut k v]). rewrite exec_app, Hops. simpl. rewrite Hp. reflexivity. }
    assert (Ho1 : ordered m1 = acc ++ [(k, v)]).
    { rewrite Ho, Ha. apply sput_fresh. intros e He. apply String.eqb_neq. intros E.
      rewrite map_app in Hnd2. simpl in Hnd2. apply NoDup_remove_2 in Hnd2. apply Hnd2.
      apply in_or_app; left. rewrite <- E. apply in_map; exact He. }
    inversion Hnd; subst.
    destruct (IH H2 (ordered m ++ [(k, v)]) m1 Hm1 Ho1) as [m' [E1 [E2 E3]]].
    { rewrite <- app_assoc. exact Hnd2. }
    exists m'. split; [exact E1|]. split; [rewrite E2, <- app_assoc; reflexivity|congruence].
Qed.

Lemma write_read_map V (dec : node -> res V) (vn : V -> res node) (m : omap string V) n :
  (forall v x, In v (map snd (entries m)) -> vn v = Ok x -> dec x = Ok v) ->
  sm_reachable m -> outOrder m = false -> map_to_yaml skey_node vn (view m) = Ok n ->
  exists m', read_map sm_put dec new_map n = (m', Ok tt) /\ entries m' = entries m.
Proof.
  intros Hdec Hm Ho Hn. rewrite map_to_yaml_spec in Hn. simpl in Hn. rewrite Ho in Hn.
  apply bind_ok in Hn as [l [Hl Hn]]. injection Hn as <-.
  apply map_res_entries in Hl.
  assert (Hnew : sm_reachable (@new_map string V)) by (exists []; reflexivity).
  destruct (read_map_spec V dec new_map Hnew l TMap) as [l1 [kvs [m' [Ha [He Hr]]]]].
  assert (Hall : Forall2 (accepts dec) l (ordered m)).
  { clear - Hl Hdec. rewrite entries_ordered in Hdec. revert Hdec.
    induction Hl as [|e p l r [Hk Hv] _ IH]; intros Hdec; constructor; [|apply IH; intros; apply Hdec; [right|]; assumption].
    split; [|apply Hdec; [left; reflexivity|exact Hv]]. unfold skey_node in Hk. injection Hk as <-. split; reflexivity. }
  assert (Hdet : forall e kv kv', accepts dec e kv -> accepts dec e kv' -> kv = kv').
  { intros e [k v] [k' v'] [[_ H1] H2] [[_ H3] H4]. simpl in *. congruence. }
  destruct Hr as [[-> Hr]|[e [l2 [-> [Hbad Hr]]]]].
  - assert (kvs = ordered m).
    { clear - Ha Hall Hdet. revert Hall. generalize (ordered m). induction Ha; intros o Ho; inversion Ho; subst; [reflexivity|].
      f_equal; [eapply Hdet; eassumption|auto]. }
    subst kvs. exists m'. split; [exact Hr|]. rewrite !entries_ordered.
    pose proof (uniq_nodup V _ (inv_uniq _ _ _ _ _ (sm_inv V m Hm))) as Hnd.
    destruct (exec_puts_nodup V (ordered m) Hnd [] new_map Hnew eq_refl Hnd) as [m2 [E1 [E2 _]]].
    rewrite E1 in He. injection He as <-. exact E2.
  - exfalso. apply Forall2_app_inv_l in Hall as [a [b [_ [Hb _]]]].
    inversion Hb as [|x y xs ys Hy Hys E1 E2]; subst. exact (Hbad _ Hy).
Qed.

Lemma map_res_total A B (f : A -> res B) (g : A -> B) l :
  (forall a, In a l -> f a = Ok (g a)) -> map_res f l = Ok (map g l).
Proof.
  induction l as [|a l IH]; intros H; simpl; [reflexivity|].
  rewrite (H a (or_introl eq_refl)). simpl. rewrite IH; [reflexivity|]. intros; apply H; right; assumption.
Qed.

(** String maps: always written, and read back equal. *)
Lemma string_map_round_trip (m : omap string string) : sm_reachable m -> outOrder m = false ->
  exists n m', map_to_yaml skey_node (fun s => Ok (str_node s)) (view m) = Ok n /\ read_map sm_put to_str new_map n = (m', Ok tt) /\ entries m' = entries m.
Proof.
  intros Hm Ho. rewrite map_to_yaml_spec.
  rewrite (map_res_total _ _ _ (fun e => (str_node (fst e), str_node (snd e)))) by reflexivity.
  simpl. rewrite Ho. eexists.
  assert (exists m', read_map sm_put to_str new_map
     (Map TMap (map (fun e => (str_node (fst e), str_node (snd e))) (ordered m))) = (m', Ok tt) /\ entries m' = entries m)
    as [m' H]; [|exists m'; split; [reflexivity|exact H]].
  apply (write_read_map _ to_str (fun s => Ok (str_node s))); auto.
  - intros v x _ H; injection H as <-; reflexivity.
  - rewrite map_to_yaml_spec.
    rewrite (map_res_total _ _ _ (fun e => (str_node (fst e), str_node (snd e)))) by reflexivity.
    simpl. rewrite Ho. reflexivity.
Qed.

Definition is_gnode (v : gval) : bool := match v with GNode _ => true | _ => false end.
Definition node_of (v : gval) : node := match v with GNode n => n | _ => null_node end.

Lemma untyped_map_round_trip (F : FloatIO) (m : omap string gval) : sm_reachable m -> outOrder m = false ->
  forallb (fun e => is_gnode (snd e)) (entries m) = true ->
  exists n m', map_to_yaml skey_node to_node (view m) = Ok n /\ read_map sm_put as_gnode new_map n = (m', Ok tt) /\ entries m' = entries m.
Proof.
  intros Hm Ho Hg.
  assert (Hw : map_to_yaml skey_node to_node (view m) =
               Ok (Map TMap (map (fun e => (str_node (fst e), node_of (snd e))) (ordered m)))).
  { rewrite map_to_yaml_spec. simpl. rewrite Ho. rewrite entries_ordered in Hg.
    rewrite (map_res_total _ _ _ (fun e => (str_node (fst e), node_of (snd e)))); [reflexivity|].
    intros e He. rewrite forallb_forall in Hg. apply Hg in He. destruct (snd e) eqn:E; try discriminate.
    unfold entry_node. rewrite E. reflexivity. }
  eexists. rewrite Hw.
  assert (exists m', read_map sm_put as_gnode new_map
     (Map TMap (map (fun e => (str_node (fst e), node_of (snd e))) (ordered m))) = (m', Ok tt) /\ entries m' = entries m)
    as [m' H]; [|exists m'; split; [reflexivity|exact H]].
  apply (write_read_map _ as_gnode to_node); auto.
  intros v x Hin. apply in_map_iff in Hin as [e [<- He]]. rewrite forallb_forall in Hg. apply Hg in He.
  destruct (snd e); try discriminate. simpl. intros H; injection H as ->. reflexivity.
Qed.

(** ** C18, C19, C45 *)

Lemma strings_only :
  (forall n old s, as_string n old = (s, Ok tt) <-> denotes_string n s) /\
  (forall n old s, as_string_ptr n old = (Some s, Ok tt) <-> denotes_string n s) /\
  (forall n old l, as_string_list n old = (Some l, Ok tt) <-> denotes_strings n l).
Proof.
  repeat split; try (intros H).
  - unfold as_string, assign_with in H. destruct (to_str n) eqn:E; try discriminate. injection H as <-.
    apply denotes_string_iff in E; apply E.
  - unfold as_string, assign_with in H. destruct (to_str n) eqn:E; try discriminate. injection H as <-.
    apply denotes_string_iff in E; apply E.
  - unfold as_string, assign_with. apply denotes_string_iff in H. rewrite H. reflexivity.
  - unfold as_string_ptr, assign_with in H. destruct (to_str n) eqn:E; try discriminate. injection H as <-.
    apply denotes_string_iff in E; apply E.
  - unfold as_string_ptr, assign_with in H. destruct (to_str n) eqn:E; try discriminate. injection H as <-.
    apply denotes_string_iff in E; apply E.
  - unfold as_string_ptr, assign_with. apply denotes_string_iff in H. rewrite H. reflexivity.
  - destruct (as_string_list_all n old) as [[a [Ha E]]|[_ E]]; rewrite E in H; [|discriminate].
    injection H as <-. exact Ha.
  - destruct (as_string_list_all n old) as [[a [Ha E]]|[Hn E]]; [|destruct (Hn _ H)].
    rewrite E. destruct H as [t [ns [-> H]]]. destruct Ha as [t' [ns' [E' Ha]]]. injection E' as <- <-.
    do 2 f_equal. clear - H Ha. revert a Ha. induction H as [|n s ns l Hs _ IH]; intros a Ha; inversion Ha; subst; [reflexivity|].
    f_equal; [|apply IH; assumption].
    match goal with H : denotes_string n ?y |- _ = s => destruct H as [_ <-] end.
    apply Hs.
Qed.

Lemma unsigned_refuted :
  exists n z, integer_text n z /\ forall old, exists v, to_uint n old = (v, Ok tt) /\ v <> z.
Proof.
  exists (int_node (-1)), (-1)%Z. split; [apply int_text_node|]. intros old.
  eexists; split; [apply (unsigned_wraps _ (-1)); [apply int_text_node|lia]|]. discriminate.
Qed.

Lemma formats_verbatim :
  (forall n f, (date_format_hat n = Ok f <-> denotes_string n f) /\
               (integer_format_hat n = Ok f <-> denotes_string n f) /\
               (number_format_hat n = Ok f <-> denotes_string n f)) /\
  (forall n, date_format_hat n <> Panic /\ integer_format_hat n <> Panic /\ number_format_hat n <> Panic) /\
  (forall f, date_format_hat (format_to_yaml f) = Ok f /\ integer_format_hat (format_to_yaml f) = Ok f /\
             number_format_hat (format_to_yaml f) = Ok f) /\
  (forall known, all_or_nothing denotes_string (fun s => s) (format_unmarshal known)) /\
  all_or_nothing denotes_string (fun s => s) number_format_unmarshal.
Proof.
  split; [|split; [|split; [|split]]].
  - intros n f. rewrite date_format_hat_str, integer_format_hat_str, number_format_hat_str, denotes_string_iff.
    split; [reflexivity|split; reflexivity].
  - intros n. rewrite date_format_hat_str, integer_format_hat_str, number_format_hat_str.
    repeat split; apply to_str_not_panic.
  - intros f. rewrite date_format_hat_str, integer_format_hat_str, number_format_hat_str. repeat split.
  - intros known n old. rewrite format_unmarshal_str.
    apply (assign_with_all denotes_string to_str (fun s => s) denotes_string_iff to_str_not_panic n old).
  - intros n old.
    apply (assign_with_all denotes_string to_str (fun s => s) denotes_string_iff to_str_not_panic n old).
Qed.
