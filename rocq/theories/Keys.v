(** Keys of AnyMap: Go interface{} values compared with [==]
    (v0/pkg/raml/AnyMap.go; the keys the readers produce come from xyml.ToScalarValue). *)
From Coq Require Import SpecFloat.
From Verif Require Import Base Num OMap OMapSpec OMapProofs.

(** Dynamic values of an interface{} key.  [KInt] is an int64, [KFloat] a float64 (IEEE 754,
    standard library SpecFloat), [KUnhash] a value whose type Go maps reject (slice, map, func);
    the number only tells different ones apart.  Simplified: the other integer types,
    pointers and structs are left out. *)
Inductive gkey : Type :=
| KNil
| KBool (b : bool)
| KStr (s : string)
| KInt (z : Z)
| KFloat (f : spec_float)
| KUnhash (n : nat).

(** Go [a == b] on interface{}: same dynamic type and equal values. *)
Definition gkey_eqb (a b : gkey) : bool :=
  match a, b with
  | KNil, KNil => true
  | KBool x, KBool y => Bool.eqb x y
  | KStr x, KStr y => String.eqb x y
  | KInt x, KInt y => (x =? y)%Z
  | KFloat x, KFloat y => SFeqb x y
  | _, _ => false
  end.

(** Whether a Go map accepts the key; otherwise it panics. *)
Definition gkey_hashable (k : gkey) : bool :=
  match k with KUnhash _ => false | _ => true end.

Definition gkey_nan (k : gkey) : bool :=
  match k with KFloat S754_nan => true | _ => false end.

(** Keys without the two defects of C14. *)
Definition gkey_proper (k : gkey) : bool := gkey_hashable k && negb (gkey_nan k).

Lemma SFeqb_refl f : f <> S754_nan -> SFeqb f f = true.
Proof.
  intros H. unfold SFeqb. destruct f as [s|s| |s m e]; simpl; try reflexivity;
    [destruct s; reflexivity|congruence|].
  rewrite Z.compare_refl. unfold Pos.compare. 
  destruct s; rewrite ?Pos.compare_cont_refl; reflexivity.
Qed.

Lemma SFeqb_fin s m e s' m' e' :
  SFeqb (S754_finite s m e) (S754_finite s' m' e') = true <-> s = s' /\ m = m' /\ e = e'.
Proof.
  split.
  - unfold SFeqb; simpl. destruct s, s'; simpl; try discriminate;
      destruct (Z.compare_spec e e') as [E|E|E]; simpl; try discriminate; subst;
      change (Pos.compare_cont Eq m m') with (Pos.compare m m');
      destruct (Pos.compare_spec m m') as [F|F|F]; simpl; try discriminate; subst; auto.
  - intros [-> [-> ->]]. apply SFeqb_refl. discriminate.
Qed.

Lemma SFeqb_sym a b : SFeqb a b = SFeqb b a.
Proof.
  destruct a as [s|s| |s m e], b as [s'|s'| |s' m' e']; try reflexivity;
    try (destruct s, s'; reflexivity); try (destruct s; reflexivity); try (destruct s'; reflexivity).
  apply eq_true_iff_eq. rewrite !SFeqb_fin. intuition congruence.
Qed.

Lemma SFeqb_trans a b c : SFeqb a b = true -> SFeqb b c = true -> SFeqb a c = true.
Proof.
  destruct a as [s|s| |s m e], b as [s'|s'| |s' m' e'], c as [t|t| |t n f]; try reflexivity;
    try discriminate;
    try (destruct s; discriminate); try (destruct s'; discriminate); try (destruct t; discriminate);
    try (destruct s, s', t; (reflexivity || discriminate)).
  rewrite !SFeqb_fin. intuition congruence.
Qed.

Lemma gkey_eqb_sym a b : gkey_eqb a b = gkey_eqb b a.
Proof.
  destruct a, b; simpl; try reflexivity.
  - destruct b, b0; reflexivity.
  - apply String.eqb_sym.
  - apply Z.eqb_sym.
  - apply SFeqb_sym.
Qed.

Lemma gkey_eqb_trans a b c : gkey_eqb a b = true -> gkey_eqb b c = true -> gkey_eqb a c = true.
Proof.
  destruct a, b, c; simpl; try discriminate; try reflexivity.
  - destruct b, b0, b1; simpl; auto.
  - rewrite !String.eqb_eq. congruence.
  - rewrite !Z.eqb_eq. congruence.
  - apply SFeqb_trans.
Qed.

Lemma gkey_proper_good k : gkey_proper k = true -> good gkey_eqb gkey_hashable k.
Proof.
  unfold gkey_proper, good. rewrite andb_true_iff. intros [H1 H2]. split; [exact H1|].
  destruct k; simpl in *; try reflexivity; try discriminate.
  - destruct b; reflexivity.
  - apply String.eqb_refl.
  - apply Z.eqb_refl.
  - apply SFeqb_refl. intros ->. discriminate.
Qed.

Notation am_put := (put gkey_eqb gkey_hashable).
Notation am_has := (has gkey_eqb gkey_hashable).
Notation am_run := (run gkey_eqb gkey_hashable).
Notation am_exec := (exec gkey_eqb gkey_hashable).

Definition op_proper {V} (o : op gkey V) : Prop := Forall (fun k => gkey_proper k = true) (op_keys o).

Lemma am_refines V (ops : list (op gkey V)) :
  Forall op_proper ops -> am_run new_map ops = srun gkey_eqb [] ops.
Proof.
  intros H. apply run_refines; [exact gkey_eqb_sym|exact gkey_eqb_trans|].
  eapply Forall_impl; [|exact H]. intros o Ho. unfold keys_good.
  eapply Forall_impl; [|exact Ho]. exact gkey_proper_good.
Qed.

Definition am_reachable {V} (m : omap gkey V) : Prop :=
  exists ops, Forall op_proper ops /\ am_exec new_map ops = Ok m.
