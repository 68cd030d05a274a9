(** Date, integer and number formats: fn-sorting-hat-date-format.go:15-31, fn-sorting-hat-integer-format.go:12-38,
    fn-sorting-hat-number-format.go:12-42 and enum-*-format.go.  A format is a Go string type; the switch over the
    known values returns the same thing in every branch. *)
From Verif Require Import Base Num Yaml Values.

(** the constants of enum-date-format.go:10-13, enum-integer-format.go:10-17, enum-number-format.go:10-19 *)
Definition date_formats : list string := ["rfc3339"; "rfc2616"].
Definition integer_formats : list string := ["int"; "int8"; "int16"; "int32"; "int64"; "long"].
Definition number_formats : list string := ["int"; "int8"; "int16"; "int32"; "int64"; "long"; "float"; "double"].

(** fn-sorting-hat-date-format.go:15-31 DateFormatSortingHat *)
Definition date_format_hat (n : node) : res string :=
  if is_string n then
    let df := value n in
    if existsb (String.eqb df) date_formats then Ok df else Ok df
  else Err.

(** fn-sorting-hat-integer-format.go:12-38 IntegerFormatSortingHat *)
Definition integer_format_hat (n : node) : res string :=
  do df <- to_str n; if existsb (String.eqb df) integer_formats then Ok df else Ok df.

(** fn-sorting-hat-number-format.go:12-42 NumberFormatSortingHat *)
Definition number_format_hat (n : node) : res string :=
  do df <- to_str n; if existsb (String.eqb df) number_formats then Ok df else Ok df.

(** enum-date-format.go:41-43, enum-integer-format.go:54-56, enum-number-format.go:57-59 ToYAML *)
Definition format_to_yaml (f : string) : node := str_node f.

(** enum-date-format.go:19-35, enum-integer-format.go:32-48 UnmarshalYAML *)
Definition format_unmarshal (known : list string) (n : node) (old : string) : string * res unit :=
  match to_str n with
  | Ok conv => match find (String.eqb conv) known with Some v => (v, Ok tt) | None => (conv, Ok tt) end
  | Err => (old, Err)
  | Panic => (old, Panic)
  end.

(** enum-number-format.go:36-51 UnmarshalYAML: the loop assigns but goes on, then the text itself is assigned. *)
Definition number_format_unmarshal (n : node) (old : string) : string * res unit :=
  match to_str n with
  | Ok f =>
    let d := fold_left (fun d v => if String.eqb v f then v else d) number_formats old in
    (let d := f in d, Ok tt)
  | Err => (old, Err)
  | Panic => (old, Panic)
  end.

Lemma date_format_hat_str n : date_format_hat n = to_str n.
Proof. unfold date_format_hat, to_str. destruct (is_string n); [|reflexivity]. match goal with |- context [if ?b then _ else _] => destruct b end; reflexivity. Qed.

Lemma integer_format_hat_str n : integer_format_hat n = to_str n.
Proof. unfold integer_format_hat. destruct (to_str n); simpl; [|reflexivity..]. match goal with |- context [if ?b then _ else _] => destruct b end; reflexivity. Qed.

Lemma number_format_hat_str n : number_format_hat n = to_str n.
Proof. unfold number_format_hat. destruct (to_str n); simpl; [|reflexivity..]. match goal with |- context [if ?b then _ else _] => destruct b end; reflexivity. Qed.

Lemma format_unmarshal_str known n old :
  format_unmarshal known n old = match to_str n with Ok s => (s, Ok tt) | Err => (old, Err) | Panic => (old, Panic) end.
Proof.
  unfold format_unmarshal. destruct (to_str n) as [s| |]; try reflexivity.
  destruct (find (String.eqb s) known) eqn:E; [|reflexivity].
  apply find_some in E as [_ E]. apply String.eqb_eq in E. congruence.
Qed.
