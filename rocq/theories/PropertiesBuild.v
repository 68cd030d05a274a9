(** Property C78: whatever can be loaded can be built. *)
From Coq Require Import SpecFloat Relations.
From Verif Require Import Base Num OMap OMapSpec Keys Yaml Values Assign Formats Meta Out Xml Example DataType Marshal Doc Api Library
  AssignProofs TypeFacts Fields FacetSpec Segs WriteSpec RoundSpec ApiFields ApiSpec ApiRoundSpec Setters SetterSpec Live BuildSpec Build.

(** Some float conversion, for the examples. *)
#[local] Instance toy : FloatIO := {
  float_of := fun _ s => if String.eqb s "0.5" then Some (S754_finite false 1 (-1)) else None;
  float_text := fun _ => (TFloat, "0.5")
}.
Local Notation s_ := str_node.
Local Notation m_ := (Map TMap).

(** ** C78, in full *)

(** For every document, library and type that can be loaded there is one built with the constructors and setters that a program can call, whose getters answer the same. *)
Definition buildable_api (F : FloatIO) : Prop := forall n a, api_unmarshal n new_api = Ok a -> exists b, built_api b /\ same_api a b.
Definition buildable_library (F : FloatIO) : Prop := forall n a, lib_unmarshal n new_library = Ok a -> exists b, built_lib b /\ same_library a b.
Definition buildable_type (F : FloatIO) : Prop := forall n a, hat n = Ok a -> exists b, built_type b /\ same_type a b.

(** No object type can be built: rbuild makes no such type. *)
Theorem C78_refuted (F : FloatIO) : ~ buildable_api F /\ ~ buildable_library F /\ ~ buildable_type F.
Proof.
  assert (T : forall b, built_type b -> same_type (new_type TyObject) b -> False).
  { intros b B S. destruct (built_kind b B) as [_ K]. inversion S as [? ? Hk _ _]; subst. rewrite <- Hk in K. cbn in K. destruct K as [K|[K|[K|[K|[K|[K|[]]]]]]]; discriminate K. }
  assert (Fst : forall A B (R : A -> B -> Prop) x l l', Forall2 R (x :: l) l' -> exists y, In y l' /\ R x y).
  { intros A B R x l l' H. inversion H as [|? y ? ? Hr _]; subst. exists y. split; [left; reflexivity|exact Hr]. }
  split; [|split]; intros H.
  - destruct (H (m_ [(s_ "title", s_ "T"); (s_ "types", m_ [(s_ "A", s_ "object")])]) _ eq_refl) as [b [B S]]. specialize (S ATypes). cbn in S.
    destruct (Fst _ _ _ _ _ _ S) as [[k t] [Hi [_ St]]]. apply (T t); [|exact St]. exact (made_all _ _ _ (built_api_types b B) k t Hi).
  - destruct (H (m_ [(s_ "types", m_ [(s_ "A", s_ "object")])]) _ eq_refl) as [b [B S]]. specialize (S LTypes). cbn in S.
    destruct (Fst _ _ _ _ _ _ S) as [[k t] [Hi [_ St]]]. apply (T t); [|exact St]. exact (made_all _ _ _ (built_lib_types b B) k t Hi).
  - destruct (H (s_ "object") _ eq_refl) as [b [B S]]. exact (T b B S).
Qed.
Print Assumptions C78_refuted.

(** ** What holds *)

(** A loaded type can be built -- the very same, not only one that answers the same -- if and only if it and all types in it are of the six kinds that rbuild makes, and none of them has examples or XML settings. *)
Theorem C78_type_partial (F : FloatIO) n d : hat n = Ok d -> (built_type d <-> forall t, anywhere_in t d -> plain_type t).
Proof. intros H. split; [intros B t Ht; exact (built_plain t d Ht B)|exact (type_buildable n d H)]. Qed.
Print Assumptions C78_type_partial.

(** A loaded document, if and only if it has no documentation pages and its types are like that. *)
Theorem C78_api_partial (F : FloatIO) n a : api_unmarshal n new_api = Ok a ->
  (built_api a <-> (a_documentation a = None \/ a_documentation a = Some []) /\ forall k d t, In (k, d) (ents (a_types a)) -> anywhere_in t d -> plain_type t).
Proof.
  intros H. split.
  - intros B. split; [exact (built_documentation a B)|]. intros k d t Hd Ht. exact (built_plain t d Ht (made_all _ _ _ (built_api_types a B) k d Hd)).
  - intros [D A]. exact (api_buildable n a H D A).
Qed.
Print Assumptions C78_api_partial.

Theorem C78_library_partial (F : FloatIO) n l : lib_unmarshal n new_library = Ok l ->
  (built_lib l <-> forall k d t, In (k, d) (ents (l_types l)) -> anywhere_in t d -> plain_type t).
Proof.
  intros H. split.
  - intros B k d t Hd Ht. exact (built_plain t d Ht (made_all _ _ _ (built_lib_types l B) k d Hd)).
  - exact (lib_buildable n l H).
Qed.
Print Assumptions C78_library_partial.

(** A document with an array of strings, an annotation, a resource and a key of its own can be built. *)
Definition case : node :=
  m_ [(s_ "title", s_ "T"); (s_ "types", m_ [(s_ "A", m_ [(s_ "type", s_ "array"); (s_ "items", m_ [(s_ "type", s_ "string"); (s_ "minLength", Scal TInt "2")])])]);
      (s_ "(note)", m_ [(s_ "a", s_ "b")]); (s_ "/things", m_ []); (s_ "more", s_ "x")].
Lemma closed_all (good : dtype -> Prop) : (forall t u, good t -> inside u t -> good u) -> forall t d, anywhere_in t d -> good d -> good t.
Proof. intros C t d H. induction H as [x y H|x|x y z _ I1 _ I2]; [intros G; exact (C y x G H)|auto|auto]. Qed.
Example C78_case : exists a, api_unmarshal case new_api = Ok a /\ built_api a.
Proof.
  assert (E : exists d it, hat (m_ [(s_ "type", s_ "string"); (s_ "minLength", Scal TInt "2")]) = Ok it /\ exists a, api_unmarshal case new_api = Ok a /\ a_documentation a = None /\ ents (a_types a) = [("A", d)] /\
    plain_type d /\ getf FItems d = Some (VOptType (Some it)) /\ plain_type it /\ (forall m, getf FFacets d = Some (VFacets m) -> ents m = []) /\ (forall m, getf FProps d = Some (VTypes m) -> ents m = []) /\
    getf FItems it = None /\ (forall m, getf FFacets it = Some (VFacets m) -> ents m = []) /\ (forall m, getf FProps it = Some (VTypes m) -> ents m = [])).
  { eexists. eexists. split; [vm_compute; reflexivity|]. eexists. split; [vm_compute; reflexivity|]. split; [reflexivity|]. split; [reflexivity|].
    split; [split; [cbn; tauto|split; [reflexivity|split; [intros m E; injection E as <-; reflexivity|reflexivity]]]|]. split; [reflexivity|].
    split; [split; [cbn; tauto|split; [reflexivity|split; [intros m E; injection E as <-; reflexivity|reflexivity]]]|].
    split; [intros m E; injection E as <-; reflexivity|]. split; [intros m E; discriminate E|]. split; [reflexivity|]. split; [intros m E; injection E as <-; reflexivity|intros m E; discriminate E]. }
  destruct E as (d & it & _ & a & H & D & T & P1 & I1 & P2 & F1 & S1 & I2 & F2 & S2). exists a. split; [exact H|]. apply (C78_api_partial toy case a H). split; [left; exact D|].
  rewrite T. intros k d' t [E|[]] Ht. injection E as _ <-.
  assert (G : t = d \/ t = it).
  { refine (closed_all (fun t => t = d \/ t = it) _ t d Ht (or_introl eq_refl)). intros x u [->| ->] Hu; inversion Hu as [? E|? m k0 E Hm|? m k0 m' k1 E Hm Hm']; subst.
    - rewrite I1 in E. injection E as <-. right. reflexivity.
    - rewrite (S1 m E) in Hm. destruct Hm.
    - rewrite (F1 m E) in Hm. destruct Hm.
    - rewrite I2 in E. discriminate E.
    - rewrite (S2 m E) in Hm. destruct Hm.
    - rewrite (F2 m E) in Hm. destruct Hm. }
  destruct G as [->| ->]; assumption.
Qed.
