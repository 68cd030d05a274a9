(** Outcomes of Go functions and the sequencing used by the whole model. *)
From Coq Require Export List Bool Arith ZArith String Ascii Lia.
Export ListNotations.
Open Scope list_scope.
Open Scope string_scope.
Open Scope list_scope.

(** A Go call returns a value, returns a non-nil error, or panics.  Error
    values are not told apart (DESIGN.md section 2). *)
Inductive res (A : Type) : Type :=
| Ok (a : A)
| Err
| Panic.
Arguments Ok {A} a.
Arguments Err {A}.
Arguments Panic {A}.

(** Sequencing: `if err != nil { return err }`, and panics propagate. *)
Definition bind {A B} (x : res A) (f : A -> res B) : res B :=
  match x with
  | Ok a => f a
  | Err => Err
  | Panic => Panic
  end.

Notation "'do' x <- e ; k" := (bind e (fun x => k))
  (at level 200, x pattern, e at level 100, k at level 200, right associativity).

Definition is_ok {A} (x : res A) : bool :=
  match x with Ok _ => true | _ => false end.

Definition is_panic {A} (x : res A) : bool :=
  match x with Panic => true | _ => false end.

(** A loop over a list with early exit: the shape of
    xyml.MapForEach/SequenceForEach and of the repository's own loops. *)
Definition fold_res {A S} (f : S -> A -> res S) : S -> list A -> res S :=
  fix fold_res s l :=
    match l with
    | [] => Ok s
    | a :: t => do s' <- f s a; fold_res s' t
    end.

(** [map] with early exit. *)
Definition map_res {A B} (f : A -> res B) : list A -> res (list B) :=
  fix map_res l :=
    match l with
    | [] => Ok []
    | a :: t => do b <- f a; do r <- map_res t; Ok (b :: r)
    end.

Lemma bind_ok {A B} (x : res A) (f : A -> res B) b :
  bind x f = Ok b <-> exists a, x = Ok a /\ f a = Ok b.
Proof.
  destruct x as [a| |]; simpl; split; intros H; try discriminate.
  - exists a; auto.
  - destruct H as [a' [Ha Hf]]; congruence.
  - destruct H as [a' [Ha Hf]]; discriminate.
  - destruct H as [a' [Ha Hf]]; discriminate.
Qed.

Lemma bind_panic {A B} (x : res A) (f : A -> res B) :
  bind x f = Panic <-> x = Panic \/ exists a, x = Ok a /\ f a = Panic.
Proof.
  destruct x as [a| |]; simpl; split; intros H; auto; try discriminate.
  - right; exists a; auto.
  - destruct H as [H|[a' [Ha Hf]]]; [discriminate|congruence].
  - destruct H as [H|[a' [Ha Hf]]]; discriminate.
Qed.

Lemma bind_assoc {A B C} (x : res A) (f : A -> res B) (g : B -> res C) :
  bind (bind x f) g = bind x (fun a => bind (f a) g).
Proof. destruct x; reflexivity. Qed.

Lemma bind_ext {A B} (x : res A) (f g : A -> res B) :
  (forall a, x = Ok a -> f a = g a) -> bind x f = bind x g.
Proof. destruct x; simpl; auto. Qed.

Lemma bind_ret {A} (x : res A) : bind x Ok = x.
Proof. destruct x; reflexivity. Qed.

Lemma fold_res_app {A S} (f : S -> A -> res S) s l1 l2 :
  fold_res f s (l1 ++ l2) = do s' <- fold_res f s l1; fold_res f s' l2.
Proof.
  revert s; induction l1 as [|a l1 IH]; intros s; simpl; [reflexivity|].
  destruct (f s a) as [s'| |]; simpl; auto.
Qed.

Lemma map_res_ok {A B} (f : A -> res B) l r :
  map_res f l = Ok r -> Forall2 (fun a b => f a = Ok b) l r.
Proof.
  revert r; induction l as [|a l IH]; intros r; simpl; intros H.
  - injection H as <-; constructor.
  - apply bind_ok in H as [b [Hb H]]; apply bind_ok in H as [r' [Hr H]].
    injection H as <-; constructor; auto.
Qed.

Lemma map_res_all {A B} (f : A -> res B) l r :
  Forall2 (fun a b => f a = Ok b) l r -> map_res f l = Ok r.
Proof.
  intros H; induction H as [|a b l r Hab H IH]; simpl; [reflexivity|].
  rewrite Hab; simpl; rewrite IH; reflexivity.
Qed.

Lemma map_res_map {A B C} (g : A -> B) (f : B -> res C) l :
  map_res f (map g l) = map_res (fun a => f (g a)) l.
Proof.
  induction l as [|a l IH]; simpl; [reflexivity|]. rewrite IH; reflexivity.
Qed.

Lemma map_res_ext_in {A B} (f g : A -> res B) l :
  (forall a, In a l -> f a = g a) -> map_res f l = map_res g l.
Proof.
  induction l as [|a l IH]; intros H; simpl; [reflexivity|].
  rewrite (H a (or_introl eq_refl)). rewrite IH; [reflexivity|].
  intros a' Ha'; apply H; right; exact Ha'.
Qed.
