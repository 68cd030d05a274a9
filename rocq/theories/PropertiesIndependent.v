(** Properties C84 and C85: calls that have nothing to do with each other can be made in either order; a call made twice is made once, and a call makes void what it is put over. *)
From Coq Require Import SpecFloat.
From Verif Require Import Base Num OMap OMapSpec Keys Yaml Values Assign Formats Meta Out Xml Example DataType Marshal Doc Api Library TypeFacts Setters SetterSpec Live Objects
  ObjProofs ObjHeap ObjPrograms ObjLoad Independent IndependentProofs PropertiesObjects.

(** ** C84 *)

(** One object, with all that getters lead to from it: separate calls, in either order. *)
Theorem C84_calls ns a ms b t : separate ns a ms b -> edit_at ns a (edit_at ms b t) = edit_at ms b (edit_at ns a t).
Proof. exact (fun S => edit_swap ns a ms b S t). Qed.
Print Assumptions C84_calls.

(** Programs, with the memory they use: when unrelated neighbours change places, any number of times, every variable ends up holding the same. *)
Theorem C84_programs us us' z t : Forall once_use us -> rearranged us us' -> (holds us z t <-> holds us' z t).
Proof. exact (rearranged_holds us us' z t). Qed.
Print Assumptions C84_programs.

(** So it is saved as the same. *)
Lemma same_saved {F : FloatIO} us us' z r r' : Forall once_use us -> (forall t, holds us z t <-> holds us' z t) -> snd (memory us) z = Some r -> snd (memory us') z = Some r' ->
  h_saved (fst (memory us)) r = h_saved (fst (memory us')) r'.
Proof.
  intros H E Er Er'. destruct (always_holds us z H) as [t [Ht _]]; [congruence|]. destruct (saved_held us z t Ht) as [q [Eq S]]. destruct (saved_held us' z t (proj1 (E t) Ht)) as [q' [Eq' S']]. congruence.
Qed.
Theorem C84_saved {F : FloatIO} us us' z r r' : Forall once_use us -> rearranged us us' -> snd (memory us) z = Some r -> snd (memory us') z = Some r' ->
  h_saved (fst (memory us)) r = h_saved (fst (memory us')) r'.
Proof. exact (fun H R => same_saved us us' z r r' H (fun t => rearranged_holds us us' z t H R)). Qed.
Print Assumptions C84_saved.

(** Two parties, each with calls of its own, none related to any of the other's, even in one document: however their calls come to be interleaved, the outcome is the same. *)
Theorem C84_interleaved us vs ws ws' z t : Forall once_use us -> Forall once_use vs -> Forall (fun u => Forall (unrelated u) vs) us ->
  interleaved us vs ws -> interleaved us vs ws' -> (holds ws z t <-> holds ws' z t).
Proof. exact (inter_holds us vs ws ws' z t). Qed.
Print Assumptions C84_interleaved.

(** ** C85 *)

(** A call made twice in a row is made once. *)
Theorem C85_twice ns a t : own_key a -> edit_at ns a (edit_at ns a t) = edit_at ns a t.
Proof. exact (edit_twice ns a t). Qed.
Print Assumptions C85_twice.
Theorem C85_twice_programs us vs x ns a z t : Forall once_use us -> once_act a -> Forall once_use vs -> own_key a ->
  (holds (us ++ Do x ns a :: Do x ns a :: vs) z t <-> holds (us ++ Do x ns a :: vs) z t).
Proof. exact (twice_holds us vs x ns a z t). Qed.
Print Assumptions C85_twice_programs.

(** A setter, SerializeOrdered, Put or Delete, on an object that has the method: a call before it that was about the same, or on something it puts aside, need not have been made. *)
Theorem C85_void ns ks a b t q : final a = true -> own_key a -> covers a ks b -> follow ns t = Some q -> has_method a q -> edit_at ns a (edit_at (ns ++ ks) b t) = edit_at ns a t.
Proof. exact (fun Fa K C E H => edit_void a ks b C Fa K ns t (fun r Er => eq_ind q (has_method a) H r (f_equal (fun o => match o with Some x => x | None => r end) (eq_trans (eq_sym E) Er)))). Qed.
Print Assumptions C85_void.
(** In programs: also if unrelated things are done in between. *)
Theorem C85_void_programs us ws vs x ns a ks b z t : Forall once_use us -> Forall once_use ws -> once_act a -> once_act b -> Forall once_use vs ->
  final a = true -> own_key a -> covers a ks b -> Forall (unrelated (Do x (ns ++ ks) b)) ws ->
  (forall t q, holds (us ++ ws) x t -> follow ns t = Some q -> has_method a q) ->
  (holds (us ++ Do x (ns ++ ks) b :: ws ++ Do x ns a :: vs) z t <-> holds (us ++ ws ++ Do x ns a :: vs) z t).
Proof. exact (fun A W Oa Ob B Fa K C => void_holds us ws vs x ns a ks b z t A W Oa Ob B C Fa K). Qed.
Print Assumptions C85_void_programs.

(** ** Cases *)

#[local] Existing Instance toy.

Definition to_b : list name := [NField FdTypes; NKey "B"].
Definition to_p : list name := [NField FdTypes; NKey "B"; NField FdProperties; NKey "p"].
Definition p_max : act := AcDef (TSetMaxItems 9).
Definition b_descr : act := AcDef (TSetDescription "b").
Definition put_c : act := AcDefs (OPut "C" (new_type TyString)).
Definition del_b : act := AcDefs (ODelete "B").
Definition title : act := AcApi (ASetTitle "new").

Local Ltac other := cbn; first [exact I | reflexivity | discriminate].
(** Each way to be separate, in the document of C79. *)
Example C84_ways :
  separate to_p p_max [NField FdTypes] put_c /\ separate to_p p_max to_b b_descr /\ separate [] title to_p p_max /\ separate [NField FdTypes] put_c [NField FdTypes] del_b /\
  separate to_p p_max to_p (AcDef (TSetUniqueItems true)) /\ separate to_p p_max [NField FdTypes; NKey "A"] b_descr.
Proof.
  split; [apply (sep_below [NField FdTypes] (NKey "B")); other|]. split; [apply (sep_below to_b (NField FdProperties)); other|]. split; [apply (sep_above [] title (NField FdTypes)); other|].
  split; [apply sep_same; other|]. split; [apply sep_same; other|]. apply sep_forked. apply forked_later, forked_here. discriminate.
Qed.
(** ... and both calls do something. *)
Example C84_both :
  let t := ThApi loaded in
  follow to_p (edit_at to_p p_max (edit_at to_b b_descr t)) <> follow to_p t /\ follow to_b (edit_at to_b b_descr t) <> follow to_b t /\
  edit_at to_p p_max (edit_at to_b b_descr t) = edit_at to_b b_descr (edit_at to_p p_max t).
Proof. split; [vm_compute; discriminate|]. split; [vm_compute; discriminate|]. apply C84_calls. apply C84_ways. Qed.
(** Keys that are added come in the order they are added in: this is why two calls that add keys to one map are not called separate. *)
Example C84_adding_order :
  let k := AcDefs (OPut "C" (new_type TyString)) in let j := AcDefs (OPut "D" (new_type TyString)) in
  edit_at [NField FdTypes] k (edit_at [NField FdTypes] j (ThApi loaded)) <> edit_at [NField FdTypes] j (edit_at [NField FdTypes] k (ThApi loaded)).
Proof. vm_compute. discriminate. Qed.
(** A call on something and one that puts it aside are not separate: the order shows. *)
Example C84_put_aside :
  edit_at to_b b_descr (edit_at [NField FdTypes] (AcDefs (OPut "B" (new_type TyString))) (ThApi loaded)) <>
  edit_at [NField FdTypes] (AcDefs (OPut "B" (new_type TyString))) (edit_at to_b b_descr (ThApi loaded)).
Proof. vm_compute. discriminate. Qed.

Example C84_document_once : Forall once_use [Open 0 (ThApi loaded)].
Proof. repeat constructor. exact C79_document_once. Qed.
(** Two parties in one document. *)
Definition first_party : list use := [Do 0 to_p p_max; Do 0 to_b b_descr; Do 0 to_p (AcDef (TSetUniqueItems true))].
Definition second_party : list use := [Do 0 [] title; Do 0 [NField FdTypes] put_c; Do 0 [NField FdTypes; NKey "A"] b_descr].
Example C84_parties : Forall once_use first_party /\ Forall once_use second_party /\ Forall (fun u => Forall (unrelated u) second_party) first_party.
Proof.
  split; [|split].
  - repeat constructor; intros n t [].
  - constructor; [intros n t []|]. constructor; [|constructor; [intros n t []|constructor]]. unfold once_use, once_act, put_c. cbn. intros t [<-|[]]. exact (proj1 C79_made TyString).
  - repeat apply Forall_cons; try apply Forall_nil; apply unrelated_calls; first [apply (sep_below [] (NField FdTypes)); other | apply (sep_below [NField FdTypes] (NKey "B")); other | apply sep_forked; apply forked_later, forked_here; discriminate].
Qed.
(** A document read from a file, and the calls of both: two of the interleavings. *)
Example C84_here z t :
  holds ([Open 0 (ThApi loaded)] ++ first_party ++ second_party) z t <->
  holds ([Open 0 (ThApi loaded)] ++ [Do 0 [] title; Do 0 to_p p_max; Do 0 [NField FdTypes] put_c; Do 0 [NField FdTypes; NKey "A"] b_descr; Do 0 to_b b_descr; Do 0 to_p (AcDef (TSetUniqueItems true))]) z t.
Proof.
  destruct C84_parties as [A [B U]]. apply C84_programs; [apply Forall_app; split; [exact C84_document_once|]; apply Forall_app; split; assumption|]. apply re_app, re_sym.
  refine (inter_first first_party second_party _ _ U). repeat constructor.
Qed.

(** A call that says all, and what it makes void: SetMaxItems after SetMaxItems; SetItems after a call on the items; Put after calls on the entry. *)
Example C85_cases :
  covers (AcDef (TSetMaxItems 3)) [] p_max /\ covers (AcDef TUnsetItems) [NField FdItems] b_descr /\ covers (AcDefs (OPut "B" (new_type TyString))) [NKey "B"; NField FdProperties; NKey "p"] p_max /\ covers (AcDefs (ODelete "B")) [] (AcDefs (OReplaceIfExists "B" (new_type TyString))).
Proof. repeat split; constructor; reflexivity. Qed.
Example C85_has : exists q, follow to_p (ThApi loaded) = Some q /\ has_method (AcDef TUnsetItems) q /\ has_method p_max q.
Proof. eexists. split; [vm_compute; reflexivity|]. split; vm_compute; split; reflexivity. Qed.
Example C85_here : edit_at to_p (AcDef TUnsetItems) (edit_at (to_p ++ [NField FdItems]) b_descr (ThApi loaded)) = edit_at to_p (AcDef TUnsetItems) (ThApi loaded) /\ edit_at (to_p ++ [NField FdItems]) b_descr (ThApi loaded) <> ThApi loaded.
Proof.
  split; [|vm_compute; discriminate]. destruct C85_has as [q [E [H _]]]. apply (C85_void to_p [NField FdItems] _ _ _ q); [reflexivity|exact I|apply C85_cases|exact E|exact H].
Qed.
(** In a program: what is done to the entry, then unrelated things, then Put. *)
Example C85_program z t :
  let put := AcDefs (OPut "B" (new_type TyString)) in
  holds ([Open 0 (ThApi loaded)] ++ Do 0 ([NField FdTypes] ++ [NKey "B"; NField FdProperties; NKey "p"]) p_max :: second_party ++ Do 0 [NField FdTypes] put :: []) z t <->
  holds ([Open 0 (ThApi loaded)] ++ second_party ++ Do 0 [NField FdTypes] put :: []) z t.
Proof.
  destruct C84_parties as [A [B U]]. apply C85_void_programs.
  - exact C84_document_once.
  - exact B.
  - unfold once_act. cbn. intros u [<-|[]]. exact (proj1 C79_made TyString).
  - intros n u [].
  - constructor.
  - reflexivity.
  - reflexivity.
  - apply C85_cases.
  - inversion U; assumption.
  - intros u q Hu. apply holds_values in Hu; [|apply Forall_app; split; [exact C84_document_once|exact B]]. vm_compute in Hu. injection Hu as <-. vm_compute. intros E. injection E as <-. reflexivity.
Qed.
(** ReplaceOrPut does not say all: after Put or Delete of the key its entry is in another position than it would be. *)
Example C85_not_final :
  let r := AcDefs (OReplaceOrPut "A" (new_type TyString)) in
  edit_at [NField FdTypes] r (edit_at [NField FdTypes] (AcDefs (ODelete "A")) (ThApi loaded)) <> edit_at [NField FdTypes] r (ThApi loaded).
Proof. vm_compute. discriminate. Qed.
(** A key that is not equal to itself is added again and again. *)
Example C85_nan :
  let a := AcExtra (OPut (KFloat S754_nan) GNil) in ~ own_key a /\ act_on a (act_on a (ThExtra blank)) <> act_on a (ThExtra blank).
Proof. split; vm_compute; discriminate. Qed.
