(** C103: what API documents and libraries have in common. *)
From Coq Require Import SpecFloat.
From Verif Require Import Base Num OMap OMapSpec Keys Yaml Values Assign Out Doc DataType Marshal Api Library CommonSpec.

Local Notation s_ := str_node.
Local Notation m_ := (Map TMap).

Section Facts.
  Context {F : FloatIO}.

  Lemma not_in_eqb k s l : ~ In k l -> In s l -> String.eqb k s = false.
  Proof. intros H Hs. apply String.eqb_neq. intros ->. exact (H Hs). Qed.

  Ltac out H s := rewrite (not_in_eqb _ s _ H) by (cbn [In api_only lib_only both]; tauto).

  Lemma step a l e : same a l -> common e -> value (fst e) <> "annotationTypes"%string -> outcomes same (api_assign a e) (lib_assign l e).
  Proof.
    intros S C Hat. apply String.eqb_neq in Hat. destruct S as [(E1 & E2 & E3 & E4 & E5 & E6 & E7) E8].
    unfold common in C. unfold api_assign, lib_assign. rewrite Hat. destruct (is_string (fst e)) eqn:Es; cbn [negb].
    - destruct C as [Ca [Cl Cr]]. out Cl "usage"%string.
      assert (Hk : forall X (p : X) (f : X), match value (fst e) with EmptyString => p | String _ _ => f end = if String.eqb (value (fst e)) "" then p else f)
        by (intros X p f; destruct (value (fst e)); reflexivity).
      destruct (value (fst e)) as [|c r] eqn:Ev; [cbn; exact I|]. clear Hk. rewrite <- Ev in *. unfold is_resource in Cr. rewrite Ev in Cr. rewrite Cr.
      out Ca "title"%string. out Ca "version"%string. out Ca "baseUri"%string. out Ca "description"%string. out Ca "protocols"%string. out Ca "mediaType"%string.
      out Ca "documentation"%string. out Ca "securedBy"%string. out Ca "baseUriParameters"%string.
      destruct (Ascii.eqb c "(") eqn:Ec.
      + assert (Hn : forall s, is_annotation s = false -> String.eqb (value (fst e)) s = false).
        { intros s Hs. apply String.eqb_neq. rewrite Ev. intros <-. cbn [is_annotation] in Hs. congruence. }
        rewrite !Hn by reflexivity. cbn [orb]. destruct (read_annotation (snd e)) as [m| |]; cbn [bind outcomes]; [|exact I|exact I].
        unfold same, same_but_annotation_types. cbn. rewrite E6. repeat split; assumption.
      + destruct (String.eqb (value (fst e)) "resourceTypes") eqn:K1.
        { apply String.eqb_eq in K1. rewrite K1. cbn -[read_untyped]. rewrite E3. destruct (read_untyped (l_resourceTypes l) (snd e)); cbn [bind outcomes]; try exact I.
          unfold same, same_but_annotation_types. cbn. repeat split; assumption. }
        destruct (String.eqb (value (fst e)) "types" || String.eqb (value (fst e)) "schemas") eqn:K2.
        { rewrite Bool.orb_true_iff, !String.eqb_eq in K2.
          assert (Hx : String.eqb (value (fst e)) "uses" = false /\ String.eqb (value (fst e)) "securitySchemes" = false /\ String.eqb (value (fst e)) "traits" = false)
            by (destruct K2 as [-> | ->]; repeat split; reflexivity).
          destruct Hx as [-> [-> ->]]. rewrite E1. destruct (read_types (l_types l) (snd e)); cbn [bind outcomes]; try exact I.
          unfold same, same_but_annotation_types. cbn. repeat split; assumption. }
        destruct (String.eqb (value (fst e)) "traits") eqn:K3.
        { apply String.eqb_eq in K3. rewrite K3. cbn -[read_untyped]. rewrite E2. destruct (read_untyped (l_traits l) (snd e)); cbn [bind outcomes]; try exact I.
          unfold same, same_but_annotation_types. cbn. repeat split; assumption. }
        destruct (String.eqb (value (fst e)) "uses") eqn:K4.
        { rewrite E5. destruct (read_strings (l_uses l) (snd e)); cbn [bind outcomes]; try exact I.
          unfold same, same_but_annotation_types. cbn. repeat split; assumption. }
        destruct (String.eqb (value (fst e)) "securitySchemes") eqn:K5.
        { rewrite E4. destruct (read_untyped (l_securitySchemes l) (snd e)); cbn [bind outcomes]; try exact I.
          unfold same, same_but_annotation_types. cbn. repeat split; assumption. }
        destruct (to_scalar (fst e)) as [s| |]; cbn [bind outcomes]; try exact I.
        unfold same, same_but_annotation_types. cbn. rewrite E7. repeat split; assumption.
    - destruct C as [Cb Cl]. out Cl "usage"%string. out Cb "resourceTypes"%string. out Cb "types"%string. out Cb "schemas"%string. out Cb "traits"%string.
      out Cb "uses"%string. out Cb "securitySchemes"%string. cbn [orb]. destruct (to_scalar (fst e)) as [s| |]; cbn [bind outcomes]; try exact I.
      unfold same, same_but_annotation_types. cbn. rewrite E7. repeat split; assumption.
  Qed.

  (** ** What is written: the same entries, up to their order and to keys that are left out of consideration *)
  Definition eqv (P : gkey -> Prop) (o o' : outm) : Prop := forall k v, P k -> In (k, v) o <-> In (k, v) o'.

  Lemma in_oput k v k' v' o : In (k, v) (oput k' v' o) <-> (k, v) = (k', v') \/ (In (k, v) o /\ gkey_eqb k k' = false).
  Proof.
    unfold oput, sput, sdelete. rewrite in_app_iff, filter_In. unfold other. cbn [fst In]. rewrite Bool.negb_true_iff.
    split; [intros [H|[H|[]]]; [right; exact H|left; symmetry; exact H]|intros [H|H]; [right; left; symmetry; exact H|left; exact H]].
  Qed.

  Lemma eqv_put P k v o o' : eqv P o o' -> eqv P (oput k v o) (oput k v o').
  Proof. intros H k1 v1 Hk. rewrite !in_oput, (H k1 v1 Hk). tauto. Qed.
  Lemma eqv_if P c k v o o' : eqv P o o' -> eqv P (oput_if c k v o) (oput_if c k v o').
  Proof. destruct c; [apply eqv_put|auto]. Qed.
  Lemma eqv_all {K V} P (kf : K -> gkey) (vf : V -> res node) l : forall o o', eqv P o o' -> eqv P (oput_all kf vf l o) (oput_all kf vf l o').
  Proof. unfold oput_all. induction l as [|e l IH]; intros o o' H; [exact H|]. cbn [fold_left]. apply IH, eqv_put, H. Qed.

  (** A put under a key that is not considered *)
  Lemma eqv_skip P k v o o' : ~ P k -> (forall k1, P k1 -> gkey_eqb k1 k = false) -> eqv P o o' -> eqv P (oput k v o) o'.
  Proof.
    intros Hn Hk H k1 v1 Hk1. rewrite in_oput, (H k1 v1 Hk1), (Hk k1 Hk1). split; [intros [E|[E _]]; [injection E as -> _; contradiction|exact E]|auto].
  Qed.
  Lemma eqv_sym P o o' : eqv P o o' -> eqv P o' o.
  Proof. intros H k v Hk. symmetry. exact (H k v Hk). Qed.
  Lemma eqv_skip_opt P k v o o' : ~ P k -> (forall k1, P k1 -> gkey_eqb k1 k = false) -> eqv P o o' -> eqv P (oput_opt k v o) o'.
  Proof. destruct v; [apply eqv_skip|auto]. Qed.
  Lemma eqv_skip_if P c k v o o' : ~ P k -> (forall k1, P k1 -> gkey_eqb k1 k = false) -> eqv P o o' -> eqv P (oput_if c k v o) o'.
  Proof. destruct c; [apply eqv_skip|auto]. Qed.
  Lemma eqv_skip_all {K V} P (kf : K -> gkey) (vf : V -> res node) l : (forall e, In e l -> ~ P (kf (fst e)) /\ forall k1, P k1 -> gkey_eqb k1 (kf (fst e)) = false) ->
    forall o o', eqv P o o' -> eqv P (oput_all kf vf l o) o'.
  Proof.
    unfold oput_all. induction l as [|e l IH]; intros Hl o o' H; [exact H|]. cbn [fold_left]. destruct (Hl e (or_introl eq_refl)) as [H1 H2].
    apply IH; [intros e' He'; apply Hl; right; exact He'|]. apply eqv_skip; assumption.
  Qed.

  (** Puts under different keys can change places *)
  Lemma eqv_swap P a va b vb o : gkey_eqb a b = false -> eqv P (oput a va (oput b vb o)) (oput b vb (oput a va o)).
  Proof.
    intros E k v Hk. rewrite !in_oput. assert (E' : gkey_eqb b a = false) by (rewrite gkey_eqb_sym; exact E).
    split; intros [H|[H H']].
    - injection H as -> ->. right. split; [left; reflexivity|exact E].
    - destruct H as [H|[H H'']]; [injection H as -> ->; left; reflexivity|right; split; [right; split; assumption|assumption]].
    - injection H as -> ->. right. split; [left; reflexivity|exact E'].
    - destruct H as [H|[H H'']]; [injection H as -> ->; left; reflexivity|right; split; [right; split; assumption|assumption]].
  Qed.
  Lemma eqv_trans P a b c : eqv P a b -> eqv P b c -> eqv P a c.
  Proof. intros H1 H2 k v Hk. rewrite (H1 k v Hk). exact (H2 k v Hk). Qed.
  Lemma eqv_refl P o : eqv P o o.
  Proof. intros k v _. reflexivity. Qed.
  Lemma eqv_swap_all {K V} P (kf : K -> gkey) (vf : V -> res node) b vb l : (forall e, In e l -> gkey_eqb (kf (fst e)) b = false) ->
    forall o, eqv P (oput_all kf vf l (oput b vb o)) (oput b vb (oput_all kf vf l o)).
  Proof.
    unfold oput_all. induction l as [|e l IH]; intros Hl o; [apply eqv_refl|]. cbn [fold_left].
    eapply eqv_trans; [apply (eqv_all P kf vf l), eqv_swap, Hl; left; reflexivity|]. apply IH. intros e' He'. apply Hl. right. exact He'.
  Qed.

  Lemma str_key k s : gkey_eqb k (KStr s) = true -> k = KStr s.
  Proof. destruct k; cbn; try discriminate. intros H. apply String.eqb_eq in H. subst. reflexivity. Qed.

  (** The keys that only one of the two writes *)
  Definition private (a : api) (s : string) : Prop := In s api_only \/ In s lib_only \/ In s (map fst (ents (a_resources a))).

  Lemma outs_eqv a l : same a l -> Forall (fun e => is_annotation (fst e) = true) (ents (l_annotations l)) ->
    eqv (fun k => forall s, private a s -> k <> KStr s) (api_out a) (lib_out l).
  Proof.
    intros [(E1 & E2 & E3 & E4 & E5 & E6 & E7) E8] Ha. set (P := fun k => forall s, private a s -> k <> KStr s).
    assert (HP : forall s, private a s -> ~ P (KStr s) /\ forall k1, P k1 -> gkey_eqb k1 (KStr s) = false).
    { intros s Hs. split; [intros H; exact (H s Hs eq_refl)|]. intros k1 H1. destruct (gkey_eqb k1 (KStr s)) eqn:E; [|reflexivity]. apply str_key in E. destruct (H1 s Hs E). }
    assert (HA : forall s, In s api_only -> private a s) by (intros s Hs; left; exact Hs).
    unfold api_out, lib_out. rewrite E1, E2, E3, E4, E5, E6, E7, E8.
    apply eqv_if. apply eqv_skip_all.
    { intros e He. apply HP. right. right. apply in_map. exact He. }
    apply eqv_all.
    match goal with |- eqv P (oput_all _ _ _ (oput_if ?c ?k ?v ?o)) _ => apply (eqv_trans P _ (oput_if c k v (oput_all KStr untyped_to_yaml (ents (l_annotations l)) o))) end.
    { destruct (nonempty (l_resourceTypes l)); cbn [oput_if]; [|apply eqv_refl]. apply eqv_swap_all. intros e He. rewrite Forall_forall in Ha.
      destruct (gkey_eqb (KStr (fst e)) (KStr "resourceTypes")) eqn:E; [|reflexivity]. apply str_key in E. injection E as E. specialize (Ha e He). rewrite E in Ha. discriminate Ha. }
    apply eqv_if, eqv_all, eqv_if, eqv_if.
    apply eqv_skip_if; [apply HP, HA; cbn; tauto|apply HP, HA; cbn; tauto|]. apply eqv_if, eqv_if.
    repeat (apply eqv_skip_opt; [apply HP, HA; cbn; tauto|apply HP, HA; cbn; tauto|]).
    apply eqv_skip; [apply HP, HA; cbn; tauto|apply HP, HA; cbn; tauto|].
    apply eqv_sym. apply eqv_skip_opt; [apply HP; right; left; cbn; tauto|apply HP; right; left; cbn; tauto|]. apply eqv_refl.
  Qed.

  Lemma in_yaml o t es : out_to_yaml o = Ok (Map t es) -> forall p, In p es <-> exists k, key_node k = Ok (fst p) /\ In (k, Ok (snd p)) o.
  Proof.
    unfold out_to_yaml, map_to_yaml. cbn [oord ents]. intros H p. destruct (map_res (entry_node key_node (fun r => r)) o) as [r| |] eqn:Er; cbn [bind] in H; try discriminate H.
    injection H as <- <-. apply map_res_entries in Er. induction Er as [|e q o es [Hk Hv] H IH]; [split; [intros []|intros [k [_ []]]]|].
    cbn [In]. rewrite IH. split.
    - intros [<-|[k [H1 H2]]]; [exists (fst e); split; [exact Hk|left; destruct e; cbn in *; congruence]|exists k; split; [exact H1|right; exact H2]].
    - intros [k [H1 [H2|H2]]]; [left|right; exists k; split; assumption]. subst e. cbn [fst snd] in *. destruct p, q; cbn in *; congruence.
  Qed.
End Facts.

(** C103 does not hold: with annotationTypes, one document is accepted as an API document and rejected as a library, and another is accepted as both but
    its annotation types are among the annotations of the library. *)
#[local] Instance toy : FloatIO := { float_of := fun _ s => None; float_text := fun _ => (TFloat, "0.5"%string) }.

Definition doc_rejected : list (node * node) := [(s_ "annotationTypes", m_ [(s_ "note", s_ "string")])].
Definition doc_misplaced : list (node * node) := [(s_ "annotationTypes", m_ [(s_ "note", m_ [(s_ "type", s_ "string")])])].

Theorem C103_refuted :
  Forall common doc_rejected /\ (exists a, api_unmarshal (m_ doc_rejected) new_api = Ok a) /\ lib_unmarshal (m_ doc_rejected) new_library = Err /\
  Forall common doc_misplaced /\
  exists a l, api_unmarshal (m_ doc_misplaced) new_api = Ok a /\ lib_unmarshal (m_ doc_misplaced) new_library = Ok l /\
              map fst (ents (a_annotationTypes a)) = ["note"%string] /\ ents (l_annotationTypes l) = [] /\
              ents (a_annotations a) = [] /\ map fst (ents (l_annotations l)) = ["note"%string].
Proof.
  assert (C : forall v, Forall common [(s_ "annotationTypes", v)]).
  { intros v. constructor; [|constructor]. unfold common. cbn. repeat split; intros H; repeat (destruct H as [H|H]; [discriminate H|]); exact H. }
  split; [apply C|]. split; [eexists; vm_compute; reflexivity|]. split; [vm_compute; reflexivity|]. split; [apply C|].
  eexists. eexists. repeat split; vm_compute; reflexivity.
Qed.
Print Assumptions C103_refuted.

(** Without annotationTypes it does: such a document is accepted, rejected or crashes alike, and all getters that both have answer the same; also when
    it is read into objects that hold the same already. *)
Theorem C103_read_partial (F : FloatIO) t l :
  Forall common l -> ~ In "annotationTypes"%string (map (fun e => value (fst e)) l) ->
  outcomes same (api_unmarshal (Map t l) new_api) (lib_unmarshal (Map t l) new_library) /\
  forall a b, same a b -> outcomes same (api_unmarshal (Map t l) a) (lib_unmarshal (Map t l) b).
Proof.
  intros H Hn.
  assert (G : forall a b, same a b -> outcomes same (api_unmarshal (Map t l) a) (lib_unmarshal (Map t l) b)).
  { unfold api_unmarshal, lib_unmarshal. cbn [map_fold]. induction H as [|e l He H IH]; intros a b S; [exact S|]. cbn [fold_res].
    assert (Hv : value (fst e) <> "annotationTypes"%string) by (intros E; apply Hn; left; exact E).
    assert (Hr : ~ In "annotationTypes"%string (map (fun e => value (fst e)) l)) by (intros E; apply Hn; right; exact E).
    pose proof (step a b e S He Hv) as P. destruct (api_assign a e) as [a'| |], (lib_assign b e) as [b'| |]; cbn [outcomes bind] in *; try contradiction; try exact I.
    exact (IH Hr a' b' P). }
  split; [|exact G]. apply G. repeat split.
Qed.
Print Assumptions C103_read_partial.

(** A node that is no mapping is rejected by both. *)
Theorem C103_other (F : FloatIO) n a b : is_map n = false -> api_unmarshal n a = Err /\ lib_unmarshal n b = Err.
Proof. intros H. destruct n; try discriminate H; split; reflexivity. Qed.
Print Assumptions C103_other.

(** Saving: an API document and a library that answer the same save the same entries, but for those under keys that only one of the two has.  The names of annotations
    are in parentheses, as in all that is loaded. *)
Theorem C103_saved_partial (F : FloatIO) a l ta ea tl el :
  same a l -> Forall (fun e => is_annotation (fst e) = true) (ents (l_annotations l)) ->
  api_marshal a = Ok (Map ta ea) -> lib_marshal l = Ok (Map tl el) ->
  forall k v, (forall s, In s api_only \/ In s lib_only \/ In s (map fst (ents (a_resources a))) -> k <> str_node s) ->
  (In (k, v) ea <-> In (k, v) el).
Proof.
  intros S Ha H1 H2 k v Hk. rewrite (in_yaml _ _ _ H1 (k, v)), (in_yaml _ _ _ H2 (k, v)). cbn [fst snd]. pose proof (outs_eqv a l S Ha) as Q.
  assert (HP : forall g, key_node g = Ok k -> forall s, private a s -> g <> KStr s) by (intros g Hg s Hs ->; cbn in Hg; injection Hg as Hg; exact (Hk s Hs (eq_sym Hg))).
  split; intros [g [Hg Hi]]; exists g; (split; [exact Hg|]); apply (Q g (Ok v) (HP g Hg)); exact Hi.
Qed.
Print Assumptions C103_saved_partial.

Example C103_nonvacuous :
  let l := [(s_ "types", m_ [(s_ "T", s_ "string")]); (s_ "(note)", m_ [(s_ "a", s_ "b")]); (s_ "x", s_ "y"); (Scal TInt "5", s_ "z"); (s_ "uses", m_ [(s_ "L", s_ "l.raml")])] in
  Forall common l /\ ~ In "annotationTypes"%string (map (fun e => value (fst e)) l) /\
  exists a b, api_unmarshal (m_ l) new_api = Ok a /\ lib_unmarshal (m_ l) new_library = Ok b /\ List.length (ents (a_extra a)) = 2%nat /\ same a b.
Proof.
  split; [|split].
  - repeat (constructor; [unfold common; cbn; repeat split; intros H; repeat (destruct H as [H|H]; [discriminate H|]); exact H|]). constructor.
  - cbn. intros H. repeat (destruct H as [H|H]; [discriminate H|]). exact H.
  - eexists. eexists. repeat split; vm_compute; reflexivity.
Qed.

Example C103_saved_nonvacuous :
  let l := [(s_ "types", m_ [(s_ "T", s_ "string")]); (s_ "(note)", m_ [(s_ "a", s_ "b")]); (s_ "resourceTypes", m_ [(s_ "r", m_ [])]); (s_ "x", s_ "y")] in
  exists a b ea el, api_unmarshal (m_ l) new_api = Ok a /\ lib_unmarshal (m_ l) new_library = Ok b /\ same a b /\
    Forall (fun e => is_annotation (fst e) = true) (ents (l_annotations b)) /\
    api_marshal a = Ok (m_ ea) /\ lib_marshal b = Ok (m_ el) /\ List.length ea = 5%nat /\ List.length el = 4%nat /\ In (s_ "x", s_ "y") el.
Proof.
  eexists. eexists. eexists. eexists. split; [vm_compute; reflexivity|]. split; [vm_compute; reflexivity|]. split; [repeat split|].
  split; [repeat constructor|]. split; [vm_compute; reflexivity|]. split; [vm_compute; reflexivity|]. split; [reflexivity|]. split; [reflexivity|]. cbn. tauto.
Qed.
