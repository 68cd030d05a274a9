(** YAML nodes (gopkg.in/yaml.v3 [yaml.Node]) and the functions of the xyml library the repository calls.
    These definitions are the assumed contracts of DESIGN.md section 3. *)
From Coq Require Import SpecFloat.
From Verif Require Import Base Num Keys.

(** Resolved tags. *)
Inductive tag : Type :=
| TStr | TInt | TBool | TFloat | TNull | TMap | TSeq | TOMap | TMerge | TTimestamp
| TInclude               (* the local tag !include *)
| TOther (s : string).

(** [Content] of a mapping is given as pairs (contract: an even number of children).  Left out: position, style, comments,
    anchors and aliases. *)
Inductive node : Type :=
| Scal (t : tag) (v : string)
| Seq (t : tag) (l : list node)
| Map (t : tag) (l : list (node * node)).

(** [node.Tag] *)
Definition node_tag (n : node) : tag :=
  match n with Scal t _ | Seq t _ | Map t _ => t end.

(** [node.Value]: empty for collections. *)
Definition value (n : node) : string :=
  match n with Scal _ v => v | _ => EmptyString end.

(** Floating point text: ToFloat and the node written for a float64.  Nothing is assumed of them. *)
Class FloatIO : Type := {
  float_of : tag -> string -> option spec_float;
  float_text : spec_float -> tag * string
}.

(** xyml.IsString *)
Definition is_string (n : node) : bool :=
  match node_tag n with TStr => true | _ => false end.

(** xyml.IsSequence, xyml.IsMap *)
Definition is_seq (n : node) : bool := match n with Seq _ _ => true | _ => false end.
Definition is_map (n : node) : bool := match n with Map _ _ => true | _ => false end.

(** xyml.RequireString followed by the use of [Value]; also xyml.ToString. *)
Definition to_str (n : node) : res string :=
  if is_string n then Ok (value n) else Err.

Definition opt_res {A} (o : option A) : res A :=
  match o with Some a => Ok a | None => Err end.

(** xyml.ToInt(n, 10) *)
Definition to_int (n : node) : res Z :=
  match n with
  | Scal TInt v => opt_res (parse_int64 v)
  | _ => Err
  end.

(** xyml.ToBoolean *)
Definition to_bool (n : node) : res bool :=
  match n with
  | Scal TBool v => opt_res (parse_bool v)
  | _ => Err
  end.

(** xyml.ToFloat *)
Definition to_float {F : FloatIO} (n : node) : res spec_float :=
  match n with
  | Scal t v => opt_res (float_of t v)
  | _ => Err
  end.

(** xyml.ToScalarValue: the result is used as the key of a map. *)
Definition to_scalar {F : FloatIO} (n : node) : res gkey :=
  match n with
  | Scal TStr v => Ok (KStr v)
  | Scal TInt v => do z <- opt_res (parse_int64 v); Ok (KInt z)
  | Scal TBool v => do b <- opt_res (parse_bool v); Ok (KBool b)
  | Scal TFloat v => do f <- opt_res (float_of TFloat v); Ok (KFloat f)
  | Scal TNull _ => Ok KNil
  | _ => Err
  end.

(** xyml.MapForEach and xyml.SequenceForEach with a callback on the state [S]; on an error the state reached so far is kept, as it
    is in Go when the callback works through pointers. *)
Definition loop {A S} (f : S -> A -> S * res unit) : S -> list A -> S * res unit :=
  fix loop s l :=
    match l with
    | [] => (s, Ok tt)
    | a :: t =>
      match f s a with
      | (s', Ok _) => loop s' t
      | (s', e) => (s', e)
      end
    end.

Definition map_for_each {S} (f : S -> node * node -> S * res unit) (s : S) (n : node) : S * res unit :=
  match n with
  | Map _ l => loop f s l
  | _ => (s, Err)
  end.

Definition seq_for_each {S} (f : S -> node -> S * res unit) (s : S) (n : node) : S * res unit :=
  match n with
  | Seq _ l => loop f s l
  | _ => (s, Err)
  end.

(** The same loops for callers that drop the state when there is an error. *)
Definition map_fold {S} (f : S -> node * node -> res S) (s : S) (n : node) : res S :=
  match n with
  | Map _ l => fold_res f s l
  | _ => Err
  end.

Definition seq_fold {S} (f : S -> node -> res S) (s : S) (n : node) : res S :=
  match n with
  | Seq _ l => fold_res f s l
  | _ => Err
  end.

(** Nodes made by xyml: NewStringNode, NewIntNode, ... *)
Definition str_node (s : string) : node := Scal TStr s.
Definition int_node (z : Z) : node := Scal TInt (print_int z).
Definition bool_node (b : bool) : node := Scal TBool (print_bool b).
Definition null_node : node := Scal TNull "null".
Definition float_node {F : FloatIO} (f : spec_float) : node :=
  Scal (fst (float_text f)) (snd (float_text f)).

(** ** Induction over nodes *)

Definition forall_list {A} (P : A -> Prop) (f : forall a, P a) : forall l, Forall P l :=
  fix go l :=
    match l with
    | [] => Forall_nil P
    | a :: t => Forall_cons a (f a) (go t)
    end.

Section NodeInd.
  Variable P : node -> Prop.
  Hypothesis HScal : forall t v, P (Scal t v).
  Hypothesis HSeq : forall t l, Forall P l -> P (Seq t l).
  Hypothesis HMap : forall t l, Forall (fun e => P (fst e) /\ P (snd e)) l -> P (Map t l).

  Fixpoint node_ind' (n : node) : P n :=
    match n with
    | Scal t v => HScal t v
    | Seq t l => HSeq t l (forall_list P node_ind' l)
    | Map t l =>
      HMap t l (forall_list (fun e => P (fst e) /\ P (snd e))
                            (fun e => conj (node_ind' (fst e)) (node_ind' (snd e))) l)
    end.
End NodeInd.

(** ** Facts *)

Lemma to_str_ok n s : to_str n = Ok s <-> node_tag n = TStr /\ value n = s.
Proof.
  unfold to_str, is_string. destruct (node_tag n); split; intros H; try discriminate;
    try (destruct H; discriminate).
  - injection H as <-; auto.
  - destruct H as [_ ->]; reflexivity.
Qed.

Lemma to_str_not_panic n : to_str n <> Panic.
Proof. unfold to_str. destruct (is_string n); discriminate. Qed.

Lemma opt_res_not_panic {A} (o : option A) : opt_res o <> Panic.
Proof. destruct o; discriminate. Qed.

Lemma opt_res_ok {A} (o : option A) a : opt_res o = Ok a <-> o = Some a.
Proof. destruct o; simpl; split; congruence. Qed.

Lemma to_int_ok n z : to_int n = Ok z <-> exists s, n = Scal TInt s /\ parse_int64 s = Some z.
Proof.
  split.
  - destruct n as [[] s| |]; simpl; try discriminate. intros H; apply opt_res_ok in H; eauto.
  - intros [s [-> H]]; simpl; rewrite H; reflexivity.
Qed.

Lemma to_int_node z : in_int64 z = true -> to_int (int_node z) = Ok z.
Proof. intros H. unfold int_node; simpl. rewrite parse_print_int by exact H. reflexivity. Qed.

Lemma to_bool_ok n b : to_bool n = Ok b <-> exists s, n = Scal TBool s /\ parse_bool s = Some b.
Proof.
  split.
  - destruct n as [[] s| |]; simpl; try discriminate. intros H; apply opt_res_ok in H; eauto.
  - intros [s [-> H]]; simpl; rewrite H; reflexivity.
Qed.

Lemma to_bool_node b : to_bool (bool_node b) = Ok b.
Proof. destruct b; reflexivity. Qed.

Lemma loop_app {A S} (f : S -> A -> S * res unit) s l1 l2 :
  loop f s (l1 ++ l2) =
  match loop f s l1 with (s', Ok _) => loop f s' l2 | r => r end.
Proof.
  revert s; induction l1 as [|a l1 IH]; intros s; [reflexivity|].
  simpl. destruct (f s a) as [s' [[]| |]]; auto.
Qed.

(** A loop that keeps the state and one that drops it agree on success. *)
Lemma loop_fold {A S} (f : S -> A -> S * res unit) (g : S -> A -> res S) :
  (forall s a, g s a = match f s a with (s', Ok _) => Ok s' | (_, Err) => Err | (_, Panic) => Panic end) ->
  forall l s, fold_res g s l = match loop f s l with (s', Ok _) => Ok s' | (_, Err) => Err | (_, Panic) => Panic end.
Proof.
  intros H l; induction l as [|a l IH]; intros s; simpl; [reflexivity|].
  rewrite H. destruct (f s a) as [s' [[]| |]]; simpl; auto.
Qed.

Lemma fold_res_ext {A S} (f g : S -> A -> res S) l :
  (forall s a, In a l -> f s a = g s a) -> forall s, fold_res f s l = fold_res g s l.
Proof.
  induction l as [|a l IH]; intros H s; simpl; [reflexivity|].
  rewrite (H s a (or_introl eq_refl)). destruct (g s a) as [s'| |]; simpl; auto.
  apply IH. intros s0 a0 Ha; apply H; right; exact Ha.
Qed.

Lemma fold_res_inv {A S} (P : S -> Prop) (f : S -> A -> res S) l :
  (forall s a s', In a l -> P s -> f s a = Ok s' -> P s') ->
  forall s s', P s -> fold_res f s l = Ok s' -> P s'.
Proof.
  induction l as [|a l IH]; intros H s s' Hs Hf; simpl in Hf.
  - injection Hf as <-; exact Hs.
  - apply bind_ok in Hf as [s1 [H1 H2]]. eapply IH; [|eapply H; [left; reflexivity|exact Hs|exact H1]|exact H2].
    intros; eapply H; [right|..]; eassumption.
Qed.

Lemma fold_res_not_panic {A S} (f : S -> A -> res S) l :
  (forall s a, In a l -> f s a <> Panic) -> forall s, fold_res f s l <> Panic.
Proof.
  induction l as [|a l IH]; intros H s; simpl; [discriminate|].
  intros E; apply bind_panic in E as [E|[s' [_ E]]].
  - exact (H s a (or_introl eq_refl) E).
  - apply (IH (fun s0 a0 Ha => H s0 a0 (or_intror Ha)) s' E).
Qed.
