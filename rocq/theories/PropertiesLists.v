(** C100: reading a document into one object leaves the lists of other objects, and those the program holds, as they are. *)
From Coq Require Import SpecFloat Lia.
From Verif Require Import Base Num OMap OMapSpec Keys Yaml Values Assign Formats Meta Out Xml Example Doc DataType Api Library Into TypeFacts Fields FieldProofs Lists
  ListSpec ListProofs.

Local Notation s_ := str_node.
Local Notation m_ := (Map TMap).
Local Notation l_ := (Seq TSeq).

(** The property: whatever the program has done, a reading changes no list but those of the object it reads into. *)
Definition leaves_other_lists {F : FloatIO} (grow : nat -> nat) : Prop :=
  forall l, let w := run grow l start in
  (forall o n q, ~ of_object o q -> seen (act grow (ReadApi o n) w) q = seen w q) /\
  (forall kd o n q, ~ of_object o q -> seen (act grow (ReadType kd o n) w) q = seen w q).

(** ** The code does not do that *)

(** x := append(make([]string, 0, 2), "text/xml"); one.SetMediaTypes(x); two.SetMediaTypes(x); then a document is read into each *)
Definition given_twice : list action :=
  [Make 0 [EStr "text/xml"] 1; Set_ 1 FMediaTypes 0; Set_ 2 FMediaTypes 0; ReadApi 1 (m_ [(s_ "mediaType", s_ "text/csv")])].
Definition for_two : node := m_ [(s_ "mediaType", s_ "text/html")].

(** x = one.MediaTypes(); x = append(x, "text/plain"), where there is room; then a document is read into one *)
Definition appended : list action :=
  [Make 0 [EStr "text/xml"] 1; Set_ 1 FMediaTypes 0; Get 5 1 FMediaTypes; Append 5 (EStr "text/plain")].

(** However [append] makes room: the media type read into the second API document replaces the one read into the first; and what the program
    appended to the list it got is replaced by the one read. *)
Theorem C100_refuted {F : FloatIO} : forall grow,
  ~ leaves_other_lists grow /\
  snd (read_api grow 2 for_two (run grow given_twice start)) = Ok tt /\
  seen (run grow given_twice start) (Field 1 FMediaTypes) = Some [EStr "text/xml"; EStr "text/csv"] /\
  seen (act grow (ReadApi 2 for_two) (run grow given_twice start)) (Field 1 FMediaTypes) = Some [EStr "text/xml"; EStr "text/html"] /\
  seen (run grow appended start) (Held 5) = Some [EStr "text/xml"; EStr "text/plain"] /\
  seen (act grow (ReadApi 1 for_two) (run grow appended start)) (Held 5) = Some [EStr "text/xml"; EStr "text/html"].
Proof.
  intros grow. split; [|repeat split].
  intros P. destruct (P given_twice) as [P1 _]. specialize (P1 2 for_two (Field 1 FMediaTypes)).
  assert (N : ~ of_object 2 (Field 1 FMediaTypes)) by (cbn; discriminate). specialize (P1 N).
  assert (X : Some [EStr "text/xml"; EStr "text/html"] = Some [EStr "text/xml"; EStr "text/csv"]) by exact P1. discriminate X.
Qed.
Print Assumptions C100_refuted.

(** Twice the size, which is what Go does for small slices *)
Definition double (n : nat) : nat := n - 1.
Definition makes_no_list (a : action) : Prop :=
  match a with Make _ _ _ | Append _ _ | Write _ _ _ | Cut _ _ _ _ _ => False | _ => True end.

(** three enum values are read into one type definition, t.SetEnum(u.Enum()), and one more into each *)
Definition enum_copied : list action :=
  [ReadType TyString 1 (m_ [(s_ "enum", l_ [s_ "a"; s_ "b"; s_ "c"])]); Get 0 1 FEnum; Set_ 2 FEnum 0;
   ReadType TyString 1 (m_ [(s_ "enum", l_ [s_ "d"])])].
Definition one_more : node := m_ [(s_ "enum", l_ [s_ "e"])].
(** the same with the documentation of two API documents *)
Definition item (t : string) : node := m_ [(s_ "title", s_ t); (s_ "content", s_ "x")].
Definition docs_copied : list action :=
  [ReadApi 1 (m_ [(s_ "documentation", l_ [item "a"; item "b"; item "c"])]); Get 0 1 FDocumentation; Set_ 2 FDocumentation 0;
   ReadApi 1 (m_ [(s_ "documentation", l_ [item "d"])])].
Definition one_more_doc : node := m_ [(s_ "documentation", l_ [item "e"])].
Definition last_title (l : option (list elem)) : option string :=
  match l with Some l => match last l EZero with EDoc d => Some (doc_title d) | _ => None end | None => None end.

(** It takes no list of the program's own: an enum, or a documentation, copied from one object to another with the setter. *)
Theorem C100_copied_refuted {F : FloatIO} :
  Forall makes_no_list (enum_copied ++ docs_copied) /\
  seen (run double enum_copied start) (Field 1 FEnum) = Some [EVal (GStr "a"); EVal (GStr "b"); EVal (GStr "c"); EVal (GStr "d")] /\
  seen (act double (ReadType TyString 2 one_more) (run double enum_copied start)) (Field 1 FEnum) =
    Some [EVal (GStr "a"); EVal (GStr "b"); EVal (GStr "c"); EVal (GStr "e")] /\
  last_title (seen (run double docs_copied start) (Field 1 FDocumentation)) = Some "d" /\
  last_title (seen (act double (ReadApi 2 one_more_doc) (run double docs_copied start)) (Field 1 FDocumentation)) = Some "e".
Proof. split; [repeat constructor|]. repeat split. Qed.
Print Assumptions C100_copied_refuted.

(** ** What holds *)

(** In any program: a list is changed only if one of its elements lies in the spare capacity of a list of the object that is read into. *)
Theorem C100_where_partial {F : FloatIO} : forall grow l, let w := run grow l start in
  forall o q, ~ of_object o q -> (forall f a i, has_room w (Field o f) a i -> ~ shows w q a i) ->
  (forall n, seen (act grow (ReadApi o n) w) q = seen w q) /\ (forall kd n, seen (act grow (ReadType kd o n) w) q = seen w q).
Proof.
  intros grow l w o q N D.
  assert (U : in_use w) by (apply use_run; intros p h E; discriminate E).
  split; [intros n|intros kd n].
  - exact (proj1 (changes_frame o w _ q (read_api_changes grow o n w) U N D)).
  - exact (proj1 (changes_frame o w _ q (read_type_changes grow kd o n w) U N D)).
Qed.
Print Assumptions C100_where_partial.

(** A program that gives away each list it made at most once, or without spare capacity, and appends to a list it got only without spare capacity:
    the property holds, whatever it does otherwise. *)
Theorem C100_careful_partial {F : FloatIO} : forall grow l, careful_all grow all_mine start l -> let w := run grow l start in
  (forall o n q, ~ of_object o q -> seen (act grow (ReadApi o n) w) q = seen w q) /\
  (forall kd o n q, ~ of_object o q -> seen (act grow (ReadType kd o n) w) q = seen w q).
Proof.
  intros grow l C w. pose proof (run_apart grow l all_mine start start_apart C) as A. split.
  - intros o n q N. exact (apart_frame _ o _ _ q (read_api_changes grow o n w) A N).
  - intros kd o n q N. exact (apart_frame _ o _ _ q (read_type_changes grow kd o n w) A N).
Qed.
Print Assumptions C100_careful_partial.

(** And then a reading does to the object's own lists what it does to lists that are values: after reading into an API document, or a type definition,
    that has certain lists, it has the lists that the readers of Into.v give, and the outcome is theirs. *)
Theorem C100_api_partial {F : FloatIO} : forall grow l, careful_all grow all_mine start l -> let w := run grow l start in
  forall o n a, (forall f, In f api_fields -> seen w (Field o f) = api_list a f) ->
  snd (read_api grow o n w) = snd (api_into n a) /\
  forall f, In f api_fields -> seen (act grow (ReadApi o n) w) (Field o f) = api_list (fst (api_into n a)) f.
Proof.
  intros grow l C w o n a R. pose proof (run_apart grow l all_mine start start_apart C) as A. exact (api_value grow _ o n w a A R).
Qed.
Print Assumptions C100_api_partial.

Theorem C100_type_partial {F : FloatIO} : forall grow l, careful_all grow all_mine start l -> let w := run grow l start in
  forall o n d, shaped d -> (forall f, In f type_fields -> seen w (Field o f) = type_list d f) ->
  snd (read_type grow (d_kind d) o n w) = snd (type_into n d) /\
  forall f, In f type_fields -> seen (act grow (ReadType (d_kind d) o n) w) (Field o f) = type_list (fst (type_into n d)) f.
Proof.
  intros grow l C w o n d Sh R. pose proof (run_apart grow l all_mine start start_apart C) as A. exact (type_value grow _ o n w d A Sh R).
Qed.
Print Assumptions C100_type_partial.

(** Setters and getters do not copy: after SetX(x) the object and the program have one list, and what is then written to its elements through either
    is seen through both. *)
Theorem C100_shared {F : FloatIO} : forall grow w o f x writes, let w' := run grow (Set_ o f x :: map (fun p => Write x (fst p) (snd p)) writes) w in
  seen w' (Field o f) = seen w' (Held x) /\ forall y, seen (act grow (Get y o f) w') (Held y) = seen w' (Field o f).
Proof.
  intros grow w o f x writes w'.
  assert (E : at_ w' (Field o f) = at_ w' (Held x)).
  { subst w'. cbn [run fold_left act]. set (w0 := put (Field o f) (at_ w (Held x)) w).
    assert (E0 : at_ w0 (Field o f) = at_ w0 (Held x)) by (subst w0; rewrite !at_put, place_eqb_refl; reflexivity). clearbody w0. revert w0 E0.
    induction writes as [|p t IH]; intros w0 E0; [exact E0|]. cbn [map fold_left act]. apply IH.
    destruct (at_ w0 (Held x)) as [h|] eqn:A; [|rewrite A; exact E0]. destruct (Nat.ltb (fst p) (len h)); [|rewrite A; exact E0].
    cbn [at_]. rewrite A. exact E0. }
  split; [unfold seen; rewrite E; reflexivity|]. intros y. unfold seen. cbn [act]. rewrite at_put, place_eqb_refl. reflexivity.
Qed.
Print Assumptions C100_shared.

(** A careful program: a list is built, given away, got back, clipped, given to a second object and appended to; documents are read into both. *)
Definition careful_program : list action :=
  [Append 0 (EStr "a"); Append 0 (EStr "b"); Append 0 (EStr "c"); Set_ 1 FMediaTypes 0;
   Get 1 1 FMediaTypes; Cut 2 1 0 3 3; Set_ 2 FMediaTypes 2; Append 2 (EStr "d"); Write 1 0 (EStr "z");
   ReadApi 1 (m_ [(s_ "title", s_ "t"); (s_ "mediaType", s_ "e"); (s_ "protocols", l_ [s_ "HTTP"])]);
   ReadApi 2 (m_ [(s_ "mediaType", s_ "f")])].

#[local] Instance toy : FloatIO := { float_of := fun _ s => None; float_text := fun _ => (TFloat, "0.5") }.

Example C100_nonvacuous :
  careful_all double all_mine start careful_program /\
  (let w := run double careful_program start in
   seen w (Field 1 FMediaTypes) = Some [EStr "z"; EStr "b"; EStr "c"; EStr "e"] /\
   seen w (Field 2 FMediaTypes) = Some [EStr "z"; EStr "b"; EStr "c"; EStr "f"] /\
   seen w (Held 2) = Some [EStr "a"; EStr "b"; EStr "c"; EStr "d"] /\
   seen w (Field 1 FProtocols) = Some [EStr "HTTP"] /\
   (* there is room, which a less careful program would have run into *)
   has_room (run double (firstn 4 careful_program) start) (Field 1 FMediaTypes) 2 3) /\
  (* and where lists do share memory, they need not meet *)
  (let w := run double enum_copied start in
   (forall f a i, has_room w (Field 1 f) a i -> ~ shows w (Field 2 FEnum) a i) /\
   ~ (forall f a i, has_room w (Field 2 f) a i -> ~ shows w (Field 1 FEnum) a i)).
Proof.
  split.
  { cbn [careful_all careful_program careful]. repeat split; try (left; reflexivity); try (right; vm_compute; auto; fail); vm_compute; auto. }
  split; [cbn; repeat split; auto|]. split.
  - intros f a i H S. destruct f; try exact H. cbn in H. destruct H as [_ H]. lia.
  - intros H. apply (H FEnum 2 3); cbn; (split; [reflexivity|lia]).
Qed.

(** An API document with the lists of the first object, and a type definition. *)
Example C100_values_nonvacuous :
  (let w := run double careful_program start in
   let a := a_set_mediaType (Some ["z"; "b"; "c"; "e"]) (a_set_protocols (Some ["HTTP"]) new_api) in
   let n := m_ [(s_ "mediaType", s_ "g"); (s_ "documentation", l_ [item "u"; s_ "v"]); (s_ "title", s_ "t")] in
   (forall f, In f api_fields -> seen w (Field 1 f) = api_list a f) /\ snd (api_into n a) = Err /\
   api_list (fst (api_into n a)) FMediaTypes = Some [EStr "z"; EStr "b"; EStr "c"; EStr "e"; EStr "g"]) /\
  (let l := [ReadType TyString 1 (m_ [(s_ "enum", l_ [s_ "a"; s_ "b"])])] in
   let n := m_ [(s_ "minLength", Scal TInt "1"); (s_ "enum", l_ [s_ "c"; Scal TInt "1"; s_ "d"])] in
   let d := fst (type_into (m_ [(s_ "enum", l_ [s_ "a"; s_ "b"])]) (new_type TyString)) in
   careful_all double all_mine start l /\ shaped d /\ (forall f, In f type_fields -> seen (run double l start) (Field 1 f) = type_list d f) /\
   snd (type_into n d) = Err /\ type_list (fst (type_into n d)) FEnum = Some [EVal (GStr "a"); EVal (GStr "b"); EVal (GStr "c")]).
Proof.
  split; cbn zeta.
  - split; [|split; reflexivity]. intros f [<-|[<-|[<-|[<-|[]]]]]; reflexivity.
  - split; [repeat split|]. split; [reflexivity|]. split; [|split; reflexivity]. intros f [<-|[<-|[]]]; reflexivity.
Qed.
