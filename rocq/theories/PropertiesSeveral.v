(** C102: several documents to one writer. *)
From Coq Require Import SpecFloat Lia.
From Verif Require Import Base Num OMap OMapSpec Keys Yaml Values Assign Formats Meta Out Xml Example Doc DataType Marshal Api Library Writer WriterProofs TypeFacts Fields
  ApiFields FacetSpec Into IntoSpec IntoProofs PropertiesInto Reader ReaderSpec PropertiesReader Several SeveralSpec.

Local Notation s_ := str_node.
Local Notation m_ := (Map TMap).

(** The first of several WriteRAML is the WriteRAML of the other properties. *)
Theorem C102_first (F : FloatIO) (E : Encoder) w :
  (forall a, write_next (DApi a) w nothing_sent = api_write a w) /\ (forall l, write_next (DLib l) w nothing_sent = lib_write l w).
Proof. split; reflexivity. Qed.
Print Assumptions C102_first.

(** What is written, to any writer: the texts of the documents, one directly after the other. *)
Lemma write_all_text (F : FloatIO) (E : Encoder) w ds : forall s s', accepted s = true -> write_all ds w s = (s', Ok tt) ->
  accepted s' = true /\
  exists ns, Forall2 (fun d n => saved_as d = Ok n) ds ns /\
             bytes s' = (bytes s ++ String.concat "" (map (fun p => text_for (fst p) (snd p)) (combine ds ns)))%string.
Proof.
  induction ds as [|d ds IH]; intros s s' Hs H; cbn [write_all] in H.
  - injection H as <-. split; [exact Hs|]. exists []. split; [constructor|]. cbn [combine map String.concat]. rewrite append_empty. reflexivity.
  - destruct (write_next d w s) as [s1 r] eqn:En. destruct r as [u| |]; try discriminate H.
    assert (H1 : accepted s1 = true /\ exists n, saved_as d = Ok n /\ bytes s1 = (bytes s ++ text_for d n)%string).
    { clear IH H. destruct d as [a|l]; cbn [write_next saved_as text_for] in *.
      - destruct (api_marshal a) as [n| |]; try discriminate En. unfold finish in En.
        destruct (send_cases w (pieces (Some header_base) n) s Hs) as [(A & B & C & D)|(A & _)]; rewrite A in En; [|discriminate En].
        injection En as <- <-. split; [exact A|]. exists n. split; [reflexivity|exact C].
      - destruct (accepted (send1 w s HeaderLibrary)) eqn:Ea; [|discriminate En]. destruct (lib_marshal l) as [n| |]; try discriminate En. unfold finish in En.
        destruct (send_cases w (pieces None n) (send1 w s HeaderLibrary) Ea) as [(A & B & C & D)|(A & _)]; rewrite A in En; [|discriminate En].
        injection En as <- <-. split; [exact A|]. exists n. split; [reflexivity|]. rewrite C. unfold send1 in *.
        destruct (w (calls s) HeaderLibrary) as [k|]; [discriminate Ea|]. cbn [bytes]. rewrite append_assoc. reflexivity. }
    destruct H1 as [Ha [n [Hn Hb]]]. destruct (IH s1 s' Ha H) as [Ha' [ns [Hns Hb']]]. split; [exact Ha'|]. exists (n :: ns).
    split; [constructor; assumption|]. cbn [combine map]. rewrite concat_cons, Hb', Hb, append_assoc. reflexivity.
Qed.

Theorem C102_written_partial (F : FloatIO) (E : Encoder) w ds s :
  write_all ds w nothing_sent = (s, Ok tt) ->
  exists ns, Forall2 (fun d n => saved_as d = Ok n) ds ns /\ bytes s = String.concat "" (map (fun p => text_for (fst p) (snd p)) (combine ds ns)).
Proof. intros H. destruct (write_all_text F E w ds nothing_sent s eq_refl H) as [_ [ns [H1 H2]]]. exists ns. split; [exact H1|exact H2]. Qed.
Print Assumptions C102_written_partial.

Lemma written_nodes (F : FloatIO) (E : Encoder) ds ls t : written ds ls t -> forall ns, Forall2 (fun d n => saved_as d = Ok n) ds ns ->
  String.concat "" (map (fun p => text_for (fst p) (snd p)) (combine ds ns)) = t.
Proof.
  intros H. induction H as [|d l ds ls t Hd H IH]; intros ns Hn; inversion Hn as [|d' n ds' ns' Hd' Hn']; subst; [reflexivity|].
  cbn [combine map fst snd]. rewrite concat_cons, (IH _ Hn'). rewrite Hd in Hd'. injection Hd' as <-. reflexivity.
Qed.

Lemma write_all_written (F : FloatIO) (E : Encoder) w ds ls t s : written ds ls t -> write_all ds w nothing_sent = (s, Ok tt) -> bytes s = t.
Proof. intros Hw H. destruct (C102_written_partial F E w ds s H) as [ns [H1 H2]]. rewrite H2. exact (written_nodes F E ds ls t Hw ns H1). Qed.

(** What is read back from it by the first call is all of the documents in one: each of them laid over those before it. *)
Theorem C102_joined_partial (F : FloatIO) (E : Encoder) (S : Scanner) w ds ls t s :
  written ds ls t -> one_mapping t ls -> write_all ds w nothing_sent = (s, Ok tt) ->
  parse_api (found (bytes s)) = (match fold_res (fun a l => api_unmarshal (m_ l) a) new_api ls with
                                 | Ok a => Parsed (Some a) None | Err => Parsed None (Some POther) | Panic => ParsePanic end) /\
  parse_library (found (bytes s)) = (match fold_res (fun a l => lib_unmarshal (m_ l) a) new_library ls with
                                     | Ok a => Parsed (Some a) None | Err => Parsed None (Some POther) | Panic => ParsePanic end).
Proof.
  intros Hw Hj Hs. rewrite (write_all_written F E w ds ls t s Hw Hs). clear Hw Hs. unfold one_mapping in Hj. rewrite Hj. unfold parse_api, parse_library, decode. cbn [node_tag].
  assert (Hg : forall A (f : A -> node * node -> res A) a0, map_fold f a0 (m_ (List.concat ls)) = fold_res (fun a l => map_fold f a (m_ l)) a0 ls).
  { clear Hj. intros A f. induction ls as [|l ls' IH]; intros a0; [reflexivity|]. cbn [List.concat map_fold fold_res]. rewrite fold_res_app.
    destruct (fold_res f a0 l) as [a1| |]; cbn [bind]; [apply IH|reflexivity|reflexivity]. }
  unfold api_unmarshal, lib_unmarshal. rewrite !Hg. split.
  - destruct (fold_res (fun a l => map_fold api_assign a (m_ l)) new_api ls); reflexivity.
  - destruct (fold_res (fun a l => map_fold lib_assign a (m_ l)) new_library ls); reflexivity.
Qed.
Print Assumptions C102_joined_partial.

(** For two documents that load: field by field, with the relations of C73. *)
Theorem C102_two_partial (F : FloatIO) (E : Encoder) (S : Scanner) w a1 a2 l1 l2 t s b1 b2 :
  written [DApi a1; DApi a2] [l1; l2] t -> one_mapping t [l1; l2] -> write_all [DApi a1; DApi a2] w nothing_sent = (s, Ok tt) ->
  api_unmarshal (m_ l1) new_api = Ok b1 -> api_unmarshal (m_ l2) new_api = Ok b2 ->
  exists b, parse_api (found (bytes s)) = Parsed (Some b) None /\ api_over l2 b1 b2 b.
Proof.
  intros Hw Hj Hs0 H1 H2. rewrite (proj1 (C102_joined_partial F E S w _ _ _ _ Hw Hj Hs0)). clear Hs0. cbn [fold_res]. rewrite H1. cbn [bind].
  destruct (C73_api F (m_ l2) b1) as [Hs Ho]. rewrite <- (proj1 (C73_readers F)) in H2 |- *.
  unfold run_assign in *. destruct (api_into (m_ l2) new_api) as [c r]; cbn [fst snd] in *. destruct r as [[]| |]; try discriminate H2. injection H2 as ->.
  specialize (Ho TMap l2 eq_refl Hs). destruct (api_into (m_ l2) b1) as [b r]; cbn [fst snd] in *. subst r. cbn [bind]. exists b. split; [reflexivity|exact Ho].
Qed.
Print Assumptions C102_two_partial.

(** Where the program writes a separator after each document, from which yaml.v3 sees that the document has ended, and each Read hands over one of them, the
    documents are read back one after another. *)
Theorem C102_separated_partial (F : FloatIO) (E : Encoder) (S : Scanner) (L : lawful S) sep ds ns k :
  Forall2 (fun d n => saved_as d = Ok n /\ found (text_for d n ++ sep) = SDoc n /\ enough (text_for d n ++ sep) = true) ds ns ->
  fst (calls_on read_api_doc k (mkReader (map (fun p => text_for (fst p) (snd p) ++ sep)%string (combine ds ns)) false)) =
  map (fun i => parse_api (match nth_error ns i with Some n => SDoc n | None => SEmpty end)) (seq 0 k) /\
  fst (calls_on read_library k (mkReader (map (fun p => text_for (fst p) (snd p) ++ sep)%string (combine ds ns)) false)) =
  map (fun i => parse_library (match nth_error ns i with Some n => SDoc n | None => SEmpty end)) (seq 0 k).
Proof.
  intros H. set (ts := map (fun p => (text_for (fst p) (snd p) ++ sep)%string) (combine ds ns)).
  assert (Hf : forall i, match nth_error ts i with Some d => found d | None => SEmpty end = match nth_error ns i with Some n => SDoc n | None => SEmpty end).
  { unfold ts. clear ts. induction H as [|d n ds' ns' [_ [Hd _]] _ IH]; intros i; [destruct i; reflexivity|]. destruct i as [|i]; cbn [combine map nth_error fst snd]; [exact Hd|apply IH]. }
  assert (He : Forall pieces_of_one (map (fun x => [x]) ts)).
  { unfold ts. clear ts Hf. induction H as [|d n ds' ns' [_ [_ Hd]] _ IH]; cbn [combine map]; constructor; [|exact IH].
    split; [exact Hd|]. intros j Hj. destruct j as [|j]; [exact (nothing_is_not_enough S L)|cbn [List.length] in Hj; lia]. }
  assert (Hc : List.concat (map (fun x => [x]) ts) = ts) by (induction ts as [|x l IH]; [reflexivity|]; cbn [map List.concat app] in *; f_equal; clear; induction l as [|y l IHl]; [reflexivity|]; cbn [map List.concat app]; f_equal; exact IHl).
  assert (Hm : map (String.concat "") (map (fun x => [x]) ts) = ts) by (rewrite map_map; clear; induction ts as [|x l IH]; [reflexivity|]; cbn [map String.concat]; f_equal; exact IH).
  assert (Hl : pieces_of_last (S := S) []) by (intros j; destruct j; exact (nothing_is_not_enough S L)).
  destruct (proj1 (C101_one_for_each_partial F S L _ [] He) Hl k) as [Ha Hb]. rewrite Hc, app_nil_r in Ha, Hb. rewrite Ha, Hb, Hm. unfold one_for_each.
  assert (Hx : forall i, match nth_error (ts ++ [""%string]) i with Some d => found d | None => SEmpty end = match nth_error ns i with Some n => SDoc n | None => SEmpty end).
  { intros i. rewrite <- Hf. destruct (nth_error ts i) as [x|] eqn:Ex.
    - rewrite nth_error_app1, Ex; [reflexivity|]. apply nth_error_Some. congruence.
    - apply nth_error_None in Ex. rewrite nth_error_app2 by exact Ex. destruct (i - List.length ts)%nat as [|j]; cbn [nth_error]; [exact (nothing_is_empty S L)|destruct j; reflexivity]. }
  cbn [String.concat]. split; apply map_ext; intros i; rewrite Hx; reflexivity.
Qed.
Print Assumptions C102_separated_partial.

(** ** The refutation *)
#[local] Instance toy : FloatIO := { float_of := fun _ s => None; float_text := fun _ => (TFloat, "0.5"%string) }.

Definition api_one : api := a_set_version (Some "1"%string) (a_set_title "One" new_api).
Definition api_two : api := a_set_description (Some "the second"%string) (a_set_title "Two" new_api).
Definition node_one : list (node * node) := [(s_ "title", s_ "One"); (s_ "version", s_ "1")].
Definition node_two : list (node * node) := [(s_ "title", s_ "Two"); (s_ "description", s_ "the second")].
Definition api_both : api := a_set_version (Some "1"%string) api_two.

(** C102 does not hold.  Two API documents are written and what is read back is one document that is neither of them, and nothing is reported: it has the title of the second and the
    version of the first, which the second does not have.  The next call says that the stream has ended. *)
Theorem C102_refuted (E : Encoder) (S : Scanner) (L : lawful S) w s :
  one_mapping (text_for (DApi api_one) (m_ node_one) ++ text_for (DApi api_two) (m_ node_two)) [node_one; node_two] ->
  write_all [DApi api_one; DApi api_two] w nothing_sent = (s, Ok tt) ->
  fst (calls_on read_api_doc 2 (mkReader [bytes s] false)) = [Parsed (Some api_both) None; Parsed None (Some PEof)] /\
  a_title api_both = a_title api_two /\ a_version api_both = a_version api_one /\ a_version api_both <> a_version api_two.
Proof.
  intros Hj Hs. split; [|split; [reflexivity|split; [reflexivity|discriminate]]].
  assert (Hw : written [DApi api_one; DApi api_two] [node_one; node_two] (text_for (DApi api_one) (m_ node_one) ++ text_for (DApi api_two) (m_ node_two))).
  { rewrite <- (append_empty (text_for (DApi api_two) (m_ node_two))). apply written_one; [vm_compute; reflexivity|]. apply written_one; [vm_compute; reflexivity|]. apply written_none. }
  pose proof (proj1 (C102_joined_partial toy E S w _ _ _ _ Hw Hj Hs)) as Hp. set (t := bytes s) in *.
  assert (Hd : decode_one (mkReader [t] false) = (found t, mkReader [] false)).
  { unfold decode_one. cbn [reads fetch]. rewrite (nothing_is_not_enough S L). cbn [append fails]. destruct (enough t) eqn:Et; rewrite Et; reflexivity. }
  cbn [calls_on]. unfold read_api_doc. rewrite Hd, (decode_end L). cbn [fst].
  rewrite Hp. f_equal.
Qed.
Print Assumptions C102_refuted.

(** ** An encoder and a scanner for which all this can happen *)
#[local] Instance toy_encoder : Encoder := { pieces := fun c n => match c with Some h => [h; "a"%string] | None => ["a"%string] end }.
#[local] Instance toy_joining : Scanner := {
  found := fun s => match s with EmptyString => SEmpty | _ => SDoc (m_ (node_one ++ node_two)) end;
  enough := fun s => false }.

Example C102_nonvacuous :
  lawful toy_joining /\
  (exists t, written [DApi api_one; DApi api_two] [node_one; node_two] t /\ one_mapping t [node_one; node_two] /\
             exists s, write_all [DApi api_one; DApi api_two] (fun _ _ => None) nothing_sent = (s, Ok tt) /\ bytes s = t) /\
  api_unmarshal (m_ node_one) new_api = Ok api_one /\ api_unmarshal (m_ node_two) new_api = Ok api_two.
Proof.
  split; [constructor; [reflexivity|reflexivity|discriminate|discriminate]|].
  split; [|split; vm_compute; reflexivity].
  eexists. split; [|split].
  - eapply written_one; [vm_compute; reflexivity|]. eapply written_one; [vm_compute; reflexivity|]. apply written_none.
  - reflexivity.
  - eexists. split; vm_compute; reflexivity.
Qed.

#[local] Instance toy_separating : Scanner := {
  found := fun s => match s with EmptyString => SEmpty | _ => SDoc (m_ node_one) end;
  enough := fun s => match s with EmptyString => false | _ => true end }.

Example C102_separated_nonvacuous :
  lawful toy_separating /\
  Forall2 (fun d n => saved_as d = Ok n /\ found (text_for d n ++ "---") = SDoc n /\ enough (text_for d n ++ "---") = true) [DApi api_one; DApi api_one] [m_ node_one; m_ node_one].
Proof.
  split.
  - constructor; [reflexivity|reflexivity| |]; intros s t; destruct s; try discriminate; reflexivity.
  - constructor; [|constructor; [|constructor]]; (split; [vm_compute; reflexivity|split; reflexivity]).
Qed.
