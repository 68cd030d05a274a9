(** Induction principles, unfolding equations and classification of type definitions. *)
From Coq Require Import SpecFloat.
From Verif Require Import Base Num OMap OMapSpec Keys Yaml Values Assign Formats Meta Out Xml Example DataType Marshal
  AssignProofs.

Lemma hat_eq {F : FloatIO} n : hat n = hat_body hat n.
Proof. destruct n; reflexivity. Qed.

Lemma to_yaml_eq {F : FloatIO} d : to_yaml d = to_yaml_body to_yaml d.
Proof. destruct d; reflexivity. Qed.

(** ** Size of nodes *)

Fixpoint node_size (n : node) : nat :=
  match n with
  | Scal _ _ => 1
  | Seq _ l => S (fold_right (fun a r => node_size a + r) 0 l)
  | Map _ l => S (fold_right (fun e r => node_size (fst e) + node_size (snd e) + r) 0 l)
  end.

Lemma size_map_val t l k v : In (k, v) l -> node_size v < node_size (Map t l).
Proof.
  intros H. simpl. induction l as [|e l IH]; [destruct H|]. simpl. destruct H as [->|H]; simpl; [lia|].
  specialize (IH H). lia.
Qed.

Lemma size_seq t l v : In v l -> node_size v < node_size (Seq t l).
Proof.
  intros H. simpl. induction l as [|e l IH]; [destruct H|]. simpl. destruct H as [->|H]; simpl; [lia|].
  specialize (IH H). lia.
Qed.

Lemma node_strong_ind (P : node -> Prop) :
  (forall n, (forall m, node_size m < node_size n -> P m) -> P n) -> forall n, P n.
Proof.
  intros H n. remember (node_size n) as s eqn:E. assert (Hs : node_size n <= s) by lia. clear E.
  revert n Hs. induction s as [|s IH]; intros n Hs; apply H; intros m Hm; [lia|]. apply IH. lia.
Qed.

(** ** Induction over types *)

Definition facets_all (P : dtype -> Prop) (f : amap string (amap string dtype)) : Prop :=
  Forall (fun e => Forall (fun e' => P (snd e')) (ents (snd e))) (ents f).

Definition spec_all (P : dtype -> Prop) (s : spec dtype) : Prop :=
  match s with
  | SArray _ _ _ (Some t) => P t
  | SObject ps _ _ _ _ _ => Forall (fun e => P (snd e)) (ents ps)
  | _ => True
  end.

Section DtypeInd.
  Variable P : dtype -> Prop.
  Hypothesis HBase : forall b, P (TBase b).
  Hypothesis HExt : forall b x f c s, facets_all P f -> spec_all P s -> P (TExt b x f c s).

  Fixpoint dtype_ind' (d : dtype) : P d :=
    match d with
    | TBase b => HBase b
    | TExt b x f c s =>
      HExt b x f c s
        (forall_list (fun e => Forall (fun e' => P (snd e')) (ents (snd e)))
           (fun e => forall_list (fun e' => P (snd e')) (fun e' => dtype_ind' (snd e')) (ents (snd e))) (ents f))
        (match s return spec_all P s with
         | SArray _ _ _ (Some t) => dtype_ind' t
         | SArray _ _ _ None => I
         | SObject ps _ _ _ _ _ => forall_list (fun e => P (snd e)) (fun e => dtype_ind' (snd e)) (ents ps)
         | _ => I
         end)
    end.
End DtypeInd.

(** ** Getters used in statements: Type(), Kind(), ExtraFacets() *)
Definition d_type (d : dtype) : string := b_schema (d_base d).
Definition d_kind (d : dtype) : dkind := b_kind (d_base d).
Definition d_extra (d : dtype) : amap gkey gval := b_extra (d_base d).

(** ** Classification by name (C21) *)

Definition builtin : list dkind :=
  [TyAny; TyArray; TyBool; TyDateOnly; TyDatetime; TyDatetimeOnly; TyFile; TyInteger; TyNil; TyNumber; TyObject;
   TyString; TyTimeOnly].

Definition builtin_names : list string :=
  ["any"; "array"; "boolean"; "date-only"; "datetime"; "datetime-only"; "file"; "integer"; "nil"; "number"; "object";
   "string"; "time-only"].

(** [named s k]: the text [s] denotes a type of kind [k]. *)
Inductive named : string -> dkind -> Prop :=
| named_builtin k : In k builtin -> named (kind_name k) k
| named_include s rest : ~ In s builtin_names -> s = ("!include " ++ rest)%string -> named s TyInclude
| named_union s a b : ~ In s builtin_names -> (forall rest, s <> ("!include " ++ rest)%string) ->
    s = (a ++ "|" ++ b)%string -> named s TyUnion
| named_custom s : ~ In s builtin_names -> (forall rest, s <> ("!include " ++ rest)%string) ->
    (forall a b, s <> (a ++ "|" ++ b)%string) -> named s TyCustom.

(** The kind a text denotes, as a function. *)
Definition kind_of (s : string) : dkind :=
  if String.eqb s "any" then TyAny
  else if String.eqb s "array" then TyArray
  else if String.eqb s "boolean" then TyBool
  else if String.eqb s "date-only" then TyDateOnly
  else if String.eqb s "datetime" then TyDatetime
  else if String.eqb s "datetime-only" then TyDatetimeOnly
  else if String.eqb s "file" then TyFile
  else if String.eqb s "integer" then TyInteger
  else if String.eqb s "nil" then TyNil
  else if String.eqb s "number" then TyNumber
  else if String.eqb s "object" then TyObject
  else if String.eqb s "string" then TyString
  else if String.eqb s "time-only" then TyTimeOnly
  else if has_prefix "!include " s then TyInclude
  else if has_byte "|" s then TyUnion
  else TyCustom.

Lemma prefix_iff p s : String.prefix p s = true <-> exists r, s = (p ++ r)%string.
Proof.
  revert s. induction p as [|c p IH]; intros s; simpl.
  - split; [intros _; exists s; reflexivity|]. intros _. destruct s; reflexivity.
  - destruct s as [|d s]; [split; [discriminate|intros [r H]; discriminate]|].
    cbn [String.prefix]. destruct (ascii_dec c d) as [->|Hn].
    + specialize (IH s). cbn in IH |- *. rewrite IH. split; intros [r H]; exists r; [rewrite H; reflexivity|injection H as H; exact H].
    + split; [discriminate|]. intros [r H]. injection H as H _. congruence.
Qed.

Lemma has_byte_iff c s : has_byte c s = true <-> exists a b, s = (a ++ String c b)%string.
Proof.
  induction s as [|d s IH]; simpl.
  - split; [discriminate|]. intros [[|x a] [b H]]; discriminate.
  - rewrite orb_true_iff, IH. split.
    + intros [H|[a [b ->]]]; [|exists (String d a), b; reflexivity].
      apply Ascii.eqb_eq in H. subst d. exists EmptyString, s. reflexivity.
    + intros [[|x a] [b H]].
      * injection H as -> _. left. apply Ascii.eqb_refl.
      * injection H as _ ->. right. eauto.
Qed.

Lemma type_to_kind_eq s : type_to_kind s = set_schema s (new_type (kind_of s)).
Proof.
  unfold type_to_kind, kind_of.
  repeat (match goal with |- context [String.eqb s ?x] => destruct (String.eqb_spec s x) as [->|?]; [reflexivity|] end).
  destruct (has_prefix "!include " s); [reflexivity|]. destruct (has_byte "|" s); reflexivity.
Qed.

Lemma kind_of_named s : named s (kind_of s).
Proof.
  unfold kind_of.
  assert (Hb : forall k, In k builtin -> kind_name k = s -> named s k) by (intros k H <-; constructor; exact H).
  repeat (match goal with |- context [String.eqb s ?x] => destruct (String.eqb_spec s x) as [->|?];
            [apply Hb; [simpl; tauto|reflexivity]|] end).
  assert (Hn : ~ In s builtin_names) by (simpl; intuition congruence).
  destruct (has_prefix "!include " s) eqn:E1.
  - unfold has_prefix in E1; apply prefix_iff in E1 as [r E1]. econstructor; eassumption.
  - assert (Hi : forall rest, s <> ("!include " ++ rest)%string).
    { intros r H. assert (has_prefix "!include " s = true) by (unfold has_prefix; apply prefix_iff; eauto). congruence. }
    destruct (has_byte "|" s) eqn:E2.
    + apply has_byte_iff in E2 as [a [b E2]]. econstructor; [exact Hn|exact Hi|exact E2].
    + apply named_custom; [exact Hn|exact Hi|]. intros a b H.
      assert (has_byte "|" s = true) by (apply has_byte_iff; eauto). congruence.
Qed.

Lemma builtin_name_in k : In k builtin -> In (kind_name k) builtin_names.
Proof. simpl. intuition (subst; simpl; tauto). Qed.

Lemma kind_of_other s : ~ In s builtin_names ->
  kind_of s = if has_prefix "!include " s then TyInclude else if has_byte "|" s then TyUnion else TyCustom.
Proof.
  intros H. unfold kind_of.
  repeat (match goal with |- context [String.eqb s ?x] => destruct (String.eqb_spec s x) as [->|?];
            [exfalso; apply H; simpl; tauto|] end).
  reflexivity.
Qed.

Lemma named_kind_of s k : named s k <-> kind_of s = k.
Proof.
  split; [|intros <-; apply kind_of_named]. intros H.
  assert (Hp : forall s, (forall rest, s <> ("!include " ++ rest)%string) -> has_prefix "!include " s = false).
  { intros s0 H0. destruct (has_prefix "!include " s0) eqn:E; [|reflexivity].
    unfold has_prefix in E. apply prefix_iff in E as [r E]. destruct (H0 r E). }
  destruct H as [k Hk|s r Hn E|s a b Hn Hi E|s Hn Hi Hb].
  - simpl in Hk. intuition (subst; reflexivity).
  - rewrite kind_of_other by exact Hn. replace (has_prefix "!include " s) with true; [reflexivity|].
    symmetry. unfold has_prefix. apply prefix_iff. eauto.
  - rewrite kind_of_other by exact Hn. rewrite Hp by exact Hi. replace (has_byte "|" s) with true; [reflexivity|].
    symmetry. apply has_byte_iff. eauto.
  - rewrite kind_of_other by exact Hn. rewrite Hp by exact Hi. destruct (has_byte "|" s) eqn:E; [|reflexivity].
    apply has_byte_iff in E as [a [b E]]. destruct (Hb a b E).
Qed.

Lemma named_fun s k1 k2 : named s k1 -> named s k2 -> k1 = k2.
Proof. rewrite !named_kind_of. congruence. Qed.

Lemma d_kind_new k : d_kind (new_type k) = k.
Proof. destruct k; reflexivity. Qed.
Lemma d_type_new k : d_type (new_type k) = kind_name k.
Proof. destruct k; reflexivity. Qed.
Lemma d_kind_set s d : d_kind (set_schema s d) = d_kind d.
Proof. destruct d; reflexivity. Qed.
Lemma d_type_set s d : d_type (set_schema s d) = s.
Proof. destruct d; reflexivity. Qed.

Lemma hat_string {F : FloatIO} n s : denotes_string n s ->
  hat n = Ok (set_schema s (new_type (kind_of s))).
Proof.
  intros [Ht <-]. rewrite hat_eq. unfold hat_body, is_string. rewrite Ht, type_to_kind_eq. reflexivity.
Qed.

Lemma string_classified {F : FloatIO} n s : denotes_string n s ->
  exists d, hat n = Ok d /\ named s (d_kind d) /\ d_type d = s /\ d = set_schema s (new_type (d_kind d)).
Proof.
  intros H. eexists. split; [apply (hat_string n s H)|].
  rewrite d_kind_set, d_kind_new, d_type_set. repeat split. apply kind_of_named.
Qed.

(** ** Classification by shape (C22) *)

Definition is_type_key (k : node) : bool := String.eqb (value k) KeyType || String.eqb (value k) KeySchema.
Definition has_key (s : string) (l : list (node * node)) : bool := existsb (fun e => String.eqb (value (fst e)) s) l.
Definition has_type_key (l : list (node * node)) : bool := existsb (fun e => is_type_key (fst e)) l.

Lemma sift_scan_some pre k v post p i :
  has_type_key pre = false -> is_type_key k = true ->
  fst (fst (sift_scan (pre ++ (k, v) :: post) p i)) = Some v.
Proof.
  revert p i. induction pre as [|[k0 v0] pre IH]; intros p i Hp Hk; simpl.
  - unfold is_type_key in Hk. rewrite Hk. reflexivity.
  - simpl in Hp. apply orb_false_iff in Hp as [H0 Hp]. unfold is_type_key in H0; simpl in H0. rewrite H0.
    apply IH; assumption.
Qed.

Lemma sift_scan_none l p i : has_type_key l = false ->
  sift_scan l p i = (None, p || has_key KeyProperties l, i || has_key KeyItems l).
Proof.
  revert p i. induction l as [|[k0 v0] l IH]; intros p i Hl; simpl.
  - rewrite !orb_false_r. reflexivity.
  - simpl in Hl. apply orb_false_iff in Hl as [H0 Hl]. unfold is_type_key in H0; simpl in H0. rewrite H0.
    rewrite IH by exact Hl. rewrite !orb_assoc. reflexivity.
Qed.

Lemma split_type_key l : has_type_key l = true ->
  exists pre k v post, l = pre ++ (k, v) :: post /\ has_type_key pre = false /\ is_type_key k = true.
Proof.
  induction l as [|[k v] l IH]; [discriminate|]. simpl. destruct (is_type_key k) eqn:E.
  - intros _. exists [], k, v, l. auto.
  - intros H. destruct (IH H) as [pre [k' [v' [post [-> [H1 H2]]]]]].
    exists ((k, v) :: pre), k', v', post. simpl. rewrite E. auto.
Qed.

(** siftType in one equation *)
Lemma sift_first pre k v post : has_type_key pre = false -> is_type_key k = true ->
  sift_type (pre ++ (k, v) :: post) =
  if is_string v then Ok (set_schema (value v) (new_type (kind_of (value v))))
  else if is_seq v then Err
  else match node_tag v with TInclude => Ok (new_type TyInclude) | _ => Err end.
Proof.
  intros Hp Hk. unfold sift_type. pose proof (sift_scan_some pre k v post false false Hp Hk) as H.
  destruct (sift_scan (pre ++ (k, v) :: post) false false) as [[o p] i]. simpl in H. subst o.
  rewrite type_to_kind_eq. reflexivity.
Qed.

Lemma sift_shape l : has_type_key l = false ->
  sift_type l = Ok (new_type (if has_key KeyProperties l then TyObject
                              else if has_key KeyItems l then TyArray else TyString)).
Proof.
  intros H. unfold sift_type. rewrite sift_scan_none by exact H. simpl.
  destruct (has_key KeyProperties l); [reflexivity|]. destruct (has_key KeyItems l); reflexivity.
Qed.
