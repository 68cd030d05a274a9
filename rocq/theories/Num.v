(** Decimal text of integers: strconv.ParseInt(s, 10, 64), strconv.FormatInt, strconv.ParseBool
    and Go's conversion uint(int64).  These are contracts of the Go library (DESIGN.md section 3). *)
From Coq Require Import Decimal DecimalString DecimalZ DecimalPos DecimalFacts.
From Verif Require Import Base.
Local Open Scope Z_scope.

(** ** Reading *)

Definition digit (c : ascii) : option Z :=
  let n := Z.of_nat (nat_of_ascii c) in
  if (48 <=? n) && (n <=? 57) then Some (n - 48) else None.

(** Value of a string of digits that continues the number [acc]. *)
Fixpoint digits_value (acc : Z) (s : string) : option Z :=
  match s with
  | EmptyString => Some acc
  | String c t =>
    match digit c with
    | Some d => digits_value (10 * acc + d) t
    | None => None
    end
  end.

(** At least one digit. *)
Definition numeral (s : string) : option Z :=
  match s with
  | EmptyString => None
  | _ => digits_value 0 s
  end.

(** Optional sign and a numeral: the integer the text denotes, without any range limit. *)
Definition decimal_value (s : string) : option Z :=
  match s with
  | String "-" t => option_map Z.opp (numeral t)
  | String "+" t => numeral t
  | _ => numeral s
  end.

Definition min_int64 : Z := - 2 ^ 63.
Definition max_int64 : Z := 2 ^ 63 - 1.
Definition in_int64 (z : Z) : bool := (min_int64 <=? z) && (z <=? max_int64).

(** strconv.ParseInt(s, 10, 64); [None] is an error (syntax or range). *)
Definition parse_int64 (s : string) : option Z :=
  match decimal_value s with
  | Some z => if in_int64 z then Some z else None
  | None => None
  end.

(** ** Writing *)

(** strconv.FormatInt(z, 10), strconv.FormatUint *)
Definition print_int (z : Z) : string := NilZero.string_of_int (Z.to_int z).

(** ** Conversion *)

(** Go uint(v) of an int64 v on a 64-bit platform. *)
Definition uint_of_int64 (z : Z) : Z := z mod 2 ^ 64.

(** strconv.ParseBool *)
Definition parse_bool (s : string) : option bool :=
  if existsb (String.eqb s) ["1"; "t"; "T"; "TRUE"; "true"; "True"] then Some true
  else if existsb (String.eqb s) ["0"; "f"; "F"; "FALSE"; "false"; "False"] then Some false
  else None.

(** strconv.FormatBool *)
Definition print_bool (b : bool) : string := if b then "true" else "false".

(** ** Facts *)

Lemma digits_value_acc u acc :
  digits_value (Zpos acc) (NilEmpty.string_of_uint u) = Some (Zpos (Pos.of_uint_acc u acc)).
Proof.
  revert acc. induction u as [|u IH|u IH|u IH|u IH|u IH|u IH|u IH|u IH|u IH|u IH]; intros acc;
    [reflexivity|..];
    cbn [NilEmpty.string_of_uint digits_value Pos.of_uint_acc];
    match goal with |- context [digit ?c] => let d := eval vm_compute in (digit c) in
                                             change (digit c) with d end; cbv iota beta;
    rewrite <- IH; f_equal; lia.
Qed.

Lemma digits_value_zero u :
  digits_value 0 (NilEmpty.string_of_uint u) = Some (Z.of_N (Pos.of_uint u)).
Proof.
  induction u as [|u IH|u IH|u IH|u IH|u IH|u IH|u IH|u IH|u IH|u IH]; [reflexivity|..];
    cbn [NilEmpty.string_of_uint digits_value Pos.of_uint];
    match goal with |- context [digit ?c] => let d := eval vm_compute in (digit c) in
                                             change (digit c) with d end; cbv iota beta.
  - exact IH.
  - apply (digits_value_acc u 1).
  - apply (digits_value_acc u 2).
  - apply (digits_value_acc u 3).
  - apply (digits_value_acc u 4).
  - apply (digits_value_acc u 5).
  - apply (digits_value_acc u 6).
  - apply (digits_value_acc u 7).
  - apply (digits_value_acc u 8).
  - apply (digits_value_acc u 9).
Qed.

Lemma numeral_print_uint u :
  numeral (NilZero.string_of_uint u) = Some (Z.of_N (Pos.of_uint u)).
Proof.
  destruct u; try reflexivity;
    unfold NilZero.string_of_uint, numeral;
    match goal with |- context [NilEmpty.string_of_uint ?x] =>
      pose proof (digits_value_zero x) as H; destruct (NilEmpty.string_of_uint x) eqn:E;
        [discriminate E|exact H] end.
Qed.

Lemma decimal_value_print z : decimal_value (print_int z) = Some z.
Proof.
  unfold print_int. rewrite <- (DecimalZ.of_to z) at 2.
  destruct (Z.to_int z) as [u|u]; unfold NilZero.string_of_int.
  - transitivity (numeral (NilZero.string_of_uint u)).
    + unfold decimal_value. destruct u; try reflexivity.
    + rewrite numeral_print_uint. reflexivity.
  - cbn [decimal_value]. rewrite numeral_print_uint. reflexivity.
Qed.

Lemma parse_print_int z : in_int64 z = true -> parse_int64 (print_int z) = Some z.
Proof. intros H. unfold parse_int64. rewrite decimal_value_print, H. reflexivity. Qed.

Lemma parse_print_int_iff z z' : parse_int64 (print_int z) = Some z' <-> z = z' /\ in_int64 z = true.
Proof.
  unfold parse_int64. rewrite decimal_value_print. destruct (in_int64 z); split.
  - intros H; injection H as ->; auto.
  - intros [-> _]; reflexivity.
  - discriminate.
  - intros [_ H]; discriminate.
Qed.

Lemma parse_int64_iff s z :
  parse_int64 s = Some z <-> decimal_value s = Some z /\ min_int64 <= z <= max_int64.
Proof.
  unfold parse_int64, in_int64. destruct (decimal_value s) as [z'|]; [|split; [discriminate|intros [H _]; discriminate]].
  destruct (Z.leb_spec min_int64 z'); destruct (Z.leb_spec z' max_int64); simpl; split; intros H';
    try discriminate; try (injection H' as <-; split; [reflexivity|lia]);
    destruct H' as [E HR]; injection E as <-; try reflexivity; lia.
Qed.

Lemma print_int_inj a b : print_int a = print_int b -> a = b.
Proof.
  intros H. assert (Some a = Some b) as E; [|congruence].
  rewrite <- (decimal_value_print a), <- (decimal_value_print b), H. reflexivity.
Qed.

Lemma parse_print_bool b : parse_bool (print_bool b) = Some b.
Proof. destruct b; reflexivity. Qed.

Lemma uint_of_int64_nonneg z : 0 <= z -> z <= max_int64 -> uint_of_int64 z = z.
Proof.
  intros H1 H2. unfold uint_of_int64. apply Z.mod_small.
  unfold max_int64 in H2. change (2 ^ 64) with 18446744073709551616.
  change (2 ^ 63) with 9223372036854775808 in H2. lia.
Qed.

Lemma uint_of_int64_neg z : min_int64 <= z -> z < 0 -> uint_of_int64 z = z + 2 ^ 64.
Proof.
  intros H1 H2. unfold uint_of_int64, min_int64 in *.
  change (2 ^ 64) with 18446744073709551616. change (2 ^ 63) with 9223372036854775808 in H1.
  symmetry. apply Z.mod_unique with (-1); lia.
Qed.
