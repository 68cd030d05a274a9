(** Proofs of C88: whole documents. *)
From Coq Require Import SpecFloat.
From Verif Require Import Base Num OMap OMapSpec Keys Yaml Values Assign Formats Meta Out Xml Example DataType Marshal Doc Api Library
  AssignProofs TypeFacts Fields FieldProofs FacetSpec FacetProofs DocProofs OrderProofs PathProofs TypeWrite Segs ExProofs Same ExRound TypeSegs WriteSpec WriteProofs
  ReadInv RoundSpec RoundProofs WasRead Writable Stable ApiSpec IdemSpec Idem ApiIdem ApiProofs ApiWrite ApiRound ApiReadRound LibAll LibProofs LibRound Sizes SizeProofs Settle SettleProofs.
Local Open Scope nat_scope.

(** ** Rounds *)

Definition at_rest (format : node -> res node) (n : node) : Prop := forall n', format n = Ok n' -> n' = n.
Lemma rest_rounds format n : at_rest format n -> forall k, rounds format (Datatypes.S k) n = rounds format 1 n.
Proof.
  intros H. induction k as [|k IH]; [reflexivity|]. change (rounds format (Datatypes.S (Datatypes.S k)) n) with (do m <- format n; rounds format (Datatypes.S k) m). cbn [rounds] in *. destruct (format n) as [m| |] eqn:E; [|reflexivity..]. assert (m = n) by exact (H m E). subst m. cbn [bind] in *. rewrite E. cbn [bind]. exact IH.
Qed.
Lemma rounds_settle format (size : node -> nat) : (forall n n1, format n = Ok n1 -> at_rest format n1 \/ size n1 < size n) ->
  forall b n k, size n <= b -> b + 2 <= k -> rounds format k n = rounds format (b + 2) n.
Proof.
  intros H. induction b as [|b IH]; intros n k L K; (destruct k as [|k]; [lia|]); cbn [Nat.add rounds]; (destruct (format n) as [n1| |] eqn:E; [|reflexivity..]); cbn [bind]; destruct (H n n1 E) as [A|A].
  - destruct k as [|k]; [lia|]. exact (rest_rounds format n1 A k).
  - lia.
  - destruct k as [|k]; [lia|]. rewrite (rest_rounds format n1 A k). replace (b + 2) with (Datatypes.S (b + 1)) by lia. rewrite (rest_rounds format n1 A (b + 1)). reflexivity.
  - apply IH; lia.
Qed.
Lemma rounds_nodes format (size : node -> nat) : (forall n n1, format n = Ok n1 -> at_rest format n1 \/ size n1 < size n) -> (forall n, size n + 1 <= nodes n) ->
  forall n k, nodes n + 1 <= k -> rounds format k n = rounds format (nodes n + 1) n.
Proof.
  intros H B n k L. pose proof (B n) as Bn. rewrite (rounds_settle format size H (size n) n k) by lia. symmetry. apply (rounds_settle format size H (size n) n); lia.
Qed.

Lemma rounds_last format k : forall n, rounds format (Datatypes.S k) n = do m <- rounds format k n; format m.
Proof.
  induction k as [|k IH]; intros n; [cbn [rounds bind]; destruct (format n); reflexivity|]. change (rounds format (Datatypes.S (Datatypes.S k)) n) with (do m <- format n; rounds format (Datatypes.S k) m). cbn [rounds]. destruct (format n) as [m| |]; cbn [bind]; [apply IH|reflexivity..].
Qed.
Lemma settled_fixed format b : (forall n k, nodes n + b <= k -> rounds format k n = rounds format (nodes n + b) n) -> forall n m, rounds format (nodes n + b) n = Ok m -> format m = Ok m.
Proof. intros H n m E. pose proof (H n (Datatypes.S (nodes n + b)) (Nat.le_succ_diag_r _)) as Q. rewrite rounds_last, E in Q. exact Q. Qed.

Section Docs.
  Context {F : FloatIO}.
  Hypothesis R : floats_return.

  Lemma type_step n n1 : format_type n = Ok n1 -> at_rest format_type n1 \/ bad true n1 < bad true n.
  Proof.
    unfold format_type. destruct (hat n) as [d| |] eqn:Ed; cbn [bind]; intros E; try discriminate E. destruct (good_all R n d Ed) as [_ G]. unfold bt in G. rewrite E in G. cbn [br] in G. destruct G as [G|G]; [left|right; exact G].
    intros n2. destruct (hat n1) as [d1| |] eqn:Ed1; cbn [bind]; intros E1; try discriminate E1. pose proof (regular_again d G n Ed n1 d1 E Ed1). congruence.
  Qed.
  Lemma types_settle n k : nodes n + 1 <= k -> rounds format_type k n = rounds format_type (nodes n + 1) n.
  Proof. apply (rounds_nodes format_type (bad true) type_step). intros m. apply bad_nodes. Qed.

  (** ** The types of a document *)

  Definition types_name (s : string) : bool := String.eqb s "types" || String.eqb s "schemas".
  Definition tb (m : amap string dtype) : nat := total (fun e => bt (snd e)) (ents m).
  Definition reg (m : amap string dtype) : Prop := forall k t, In (k, t) (ents m) -> regular t.
  Definition even (m : amap gkey gval) : Prop := forall x v, In (KFloat x, v) (ents m) -> fst (float_text x) = TFloat.
  Definition text_keys (m : amap gkey gval) : Prop := forall x v, In (KFloat x, v) (ents m) -> from_text x.
  Definition fits (acc : nat) (m : amap string dtype) (x : amap gkey gval) : Prop := tb m <= acc /\ ((reg m /\ even x) \/ tb m < acc) /\ text_keys x.

  Lemma fits_more acc k m x : fits acc m x -> fits (acc + k) m x.
  Proof. intros [H1 [H2 H3]]. split; [lia|]. split; [|exact H3]. destruct H2 as [H2|H2]; [left; exact H2|right; lia]. Qed.
  Lemma fits_types acc m x v m' : fits acc m x -> read_amap hat m v = Ok m' -> fits (acc + bad false v) m' x.
  Proof.
    unfold read_amap, map_fold. destruct v as [t s|t s|t l]; try discriminate. rewrite bad_types. revert m acc. induction l as [|[k v] l IH]; intros m acc [A1 [A2 A3]] H; cbn [fold_res] in H.
    { injection H as <-. apply fits_more. split; [exact A1|split; [exact A2|exact A3]]. }
    unfold read_amap_pair at 1 in H. cbn [fst snd] in H. destruct (to_str k) as [s| |]; cbn [bind] in H; try discriminate H. destruct (hat v) as [d| |] eqn:Ed; cbn [bind] in H; try discriminate H.
    rewrite total_cons. cbn [snd]. rewrite Nat.add_assoc. apply (IH (mput s d m) (acc + bad true v)); [|exact H]. destruct (good_all R v d Ed) as [G1 G2]. pose proof (total_sput String.eqb (fun e => bt (snd e)) s d (ents m)) as P. cbn [snd] in P. unfold fits, tb in *. change (ents (mput s d m)) with (sput String.eqb s d (ents m)). split; [lia|]. split; [|exact A3].
    destruct A2 as [[A2 A4]|A2]; [|right; lia]. destruct G2 as [G2|G2]; [|right; lia]. left. split; [|exact A4]. intros k' t' I. change (ents (mput s d m)) with (sput String.eqb s d (ents m)) in I. unfold sput, sdelete in I. apply in_app_or in I as [I|[I|[]]]; [apply filter_In in I as [I _]; exact (A2 k' t' I)|]. injection I as <- <-. exact G2.
  Qed.
  Lemma fits_extra acc m x e s v : fits acc m x -> to_scalar (fst e) = Ok s -> fits (acc + (if odd_float e then 1 else 0)) m (kput s (GNode v) x).
  Proof.
    intros [A1 [A2 A3]] E. assert (K : forall y w, In (KFloat y, w) (ents (kput s (GNode v) x)) -> In (KFloat y, w) (ents x) \/ s = KFloat y).
    { intros y w I. change (ents (kput s (GNode v) x)) with (sput gkey_eqb s (GNode v) (ents x)) in I. unfold sput, sdelete in I. apply in_app_or in I as [I|[I|[]]]; [apply filter_In in I as [I _]; left; exact I|]. injection I as -> _. right. reflexivity. }
    split; [lia|]. split.
    - destruct A2 as [[A2 A4]|A2]; [|right; lia]. destruct (odd_float e) eqn:O; [right; lia|]. left. split; [exact A2|]. intros y w I. apply K in I as [I|I]; [exact (A4 y w I)|]. subst s. unfold odd_float in O. rewrite E in O. destruct (fst (float_text y)); try discriminate O. reflexivity.
    - intros y w I. apply K in I as [I|I]; [exact (A3 y w I)|]. subst s. eapply to_scalar_text. exact E.
  Qed.
  Lemma fits_exact acc m x : fits acc m x -> even x -> exact_keys x /\ plain_keys x.
  Proof. intros [_ [_ A]] B. split; intros y v I; apply text_exact; try exact R; try exact (A y v I). exact (B y v I). Qed.

  (** A document: the types under the keys that [q] picks, odd keys, the keys that [q'] picks *)
  Definition dw (q : node -> bool) (q' : node * node -> bool) (e : node * node) : nat := (if q (fst e) then bad false (snd e) else 0) + (if odd_float e then 1 else 0) + (if q' e then 1 else 0).
  Definition doc_bad (q : node -> bool) (q' : node * node -> bool) (n : node) : nat := match n with Map _ l => total (dw q q') l | _ => 0 end.
  Definition w_doc (q : node -> bool) (q' : node * node -> bool) (e : gkey * res node) : nat := match key_node (fst e), snd e with Ok m, Ok v => dw q q' (m, v) | _, _ => 0 end.
  Lemma doc_bad_nodes q q' n : (forall m v, q m = true -> q' (m, v) = false) -> doc_bad q q' n + 1 <= nodes n.
  Proof.
    intros Q. destruct n as [t s|t l|t l]; cbn [doc_bad]; try apply nodes_pos. rewrite nodes_map. match goal with |- ?a + 1 <= _ => assert (a <= total pair_nodes l); [|lia] end. apply total_le. intros [k v] _. unfold pair_nodes, dw. cbn [fst snd]. pose proof (nodes_pos k). pose proof (nodes_pos v). pose proof (bad_nodes v false). specialize (Q k v). destruct (q k); [rewrite Q by reflexivity|destruct (q' (k, v))]; destruct (odd_float (k, v)); lia.
  Qed.
  Lemma doc_out q q' o n : out_to_yaml o = Ok n -> doc_bad q q' n = total (w_doc q q') o.
  Proof.
    intros H. apply out_to_yaml_ok in H as [l [-> W]]. cbn [doc_bad]. induction W as [|[k r] [kn v] o' l' [K V] W IH]; [reflexivity|]. rewrite !total_cons, IH. f_equal. unfold w_doc. cbn [fst snd] in *. rewrite K, V. reflexivity.
  Qed.
  Lemma w_doc_str q q' s r : q (str_node s) = false -> (forall v, q' (str_node s, v) = false) -> w_doc q q' (KStr s, r) = 0.
  Proof. intros A B. unfold w_doc, dw. cbn [fst snd key_node]. rewrite A. destruct r as [v| |]; [rewrite B|..]; reflexivity. Qed.
  Lemma w_doc_types q q' s m : (forall v, q' (str_node s, v) = false) -> w_doc q q' (KStr s, types_to_yaml to_yaml m) <= tb m.
  Proof.
    intros B. pose proof (types_bad m) as T. unfold w_doc, dw. cbn [fst snd key_node]. unfold tb. destruct (types_to_yaml to_yaml m) as [v| |]; cbn [br] in T; [|lia..]. rewrite B. destruct (q (str_node s)); change (odd_float (str_node s, v)) with false; cbn; lia.
  Qed.

  (** ** APIs *)

  Definition aq (m : node) : bool := is_string m && types_name (value m).
  Definition never (e : node * node) : bool := false.
  Definition api_inv (acc : nat) (a : api) : Prop := fits acc (a_types a) (a_extra a).
  Lemma api_assign_inv acc a e a' : api_inv acc a -> api_assign a e = Ok a' -> api_inv (acc + dw aq never e) a'.
  Proof.
    intros U. unfold api_assign, dw, aq, never. destruct e as [k v]. cbn [fst snd]. rewrite Nat.add_0_r. destruct (is_string k) eqn:Es; cbn [negb andb].
    2:{ destruct (to_scalar k) as [s| |] eqn:E; cbn [bind]; intros H; try discriminate H. injection H as <-. exact (fits_extra acc _ _ (k, v) s v U E). }
    destruct (value k) as [|c r] eqn:Ev; [discriminate|]. rewrite <- Ev.
    assert (O : odd_float (k, v) = false) by (unfold odd_float; cbn [fst]; unfold is_string in Es; destruct k as [t s|t l|t l]; try reflexivity; cbn [node_tag] in Es; destruct t; try discriminate Es; reflexivity).
    assert (M : forall x, api_inv acc x -> api_inv (acc + ((if types_name (value k) then bad false v else 0) + (if odd_float (k, v) then 1 else 0))) x) by (intros x; apply fits_more).
    destruct (Ascii.eqb c "("); [destruct (read_annotation v) as [w| |]; cbn [bind]; intros H; try discriminate H; injection H as <-; exact (M _ U)|].
    destruct (Ascii.eqb c "/"); [intros H; injection H as <-; exact (M _ U)|].
    do 14 (match goal with |- (if String.eqb ?y ?z then _ else _) = _ -> _ => destruct (String.eqb y z); [match goal with |- bind ?r _ = _ -> _ => destruct r as [w| |]; cbn [bind]; intros H; try discriminate H; injection H as <-; exact (M _ U) end|] end).
    change (String.eqb (value k) KeyTypes || String.eqb (value k) KeySchemas)%bool with (types_name (value k)). destruct (types_name (value k)).
    - destruct (read_types (a_types a) v) as [w| |] eqn:E; cbn [bind]; intros H; try discriminate H. injection H as <-. rewrite O, Nat.add_0_r. exact (fits_types _ _ _ v w U E).
    - destruct (to_scalar k) as [s| |] eqn:E; cbn [bind]; intros H; try discriminate H. injection H as <-. exact (fits_extra acc _ _ (k, v) s v U E).
  Qed.
  Lemma fold_inv {S} (step : S -> node * node -> res S) (I : nat -> S -> Prop) w : (forall acc a e a', I acc a -> step a e = Ok a' -> I (acc + w e) a') ->
    forall l acc a a', I acc a -> fold_res step a l = Ok a' -> I (acc + total w l) a'.
  Proof.
    intros H. induction l as [|e l IH]; intros acc a a' A E; cbn [fold_res] in E; [injection E as <-; unfold total; cbn; rewrite Nat.add_0_r; exact A|].
    destruct (step a e) as [a1| |] eqn:E1; cbn [bind] in E; try discriminate E. rewrite total_cons, Nat.add_assoc. apply (IH _ a1); [|exact E]. exact (H _ _ _ _ A E1).
  Qed.
  Lemma api_read_inv t l a : api_unmarshal (Map t l) new_api = Ok a -> api_inv (doc_bad aq never (Map t l)) a.
  Proof.
    intros H. apply (fold_inv api_assign api_inv (dw aq never) api_assign_inv l 0 new_api a); [|exact H]. split; [reflexivity|]. split; [left; split; intros x v []|intros x v []].
  Qed.
  Lemma aq_paren s : starts_paren s = true -> aq (str_node s) = false.
  Proof. intros H. unfold aq, types_name. cbn [is_string str_node node_tag value andb]. rewrite !(paren_not s) by (exact H || reflexivity). reflexivity. Qed.
  Lemma api_write_bad t l a n : api_unmarshal (Map t l) new_api = Ok a -> api_marshal a = Ok n -> doc_bad aq never n <= tb (a_types a).
  Proof.
    intros H W. pose proof (api_read_inv t l a H) as [_ [_ X]]. rewrite (doc_out aq never _ n W). pose proof (proj2 (proj1 (api_read_iff _ _ _) H)) as D. unfold api_out.
    match goal with |- total _ (oput_if _ _ _ ?o) <= _ => assert (B : total (w_doc aq never) o <= 0) end.
    2:{ destruct (nonempty (a_types a)); cbn [oput_if]; [|lia]. pose proof (w_put_at (w_doc aq never) (KStr KeyTypes) (types_to_yaml to_yaml (a_types a)) _ 0 B) as B'. pose proof (w_doc_types aq never KeyTypes (a_types a) (fun _ => eq_refl)). lia. }
    destruct D as (_ & _ & _ & _ & _ & _ & _ & _ & _ & _ & _ & _ & _ & _ & _ & A16 & A17 & A18).
    match goal with |- total _ (oput_all _ _ ?m ?o) <= 0 => assert (B : total (w_doc aq never) o <= 0); [|pose proof (w_all (w_doc aq never) KStr to_node m o 0 B) as B'; rewrite (total_none (fun e => w_doc aq never (KStr (fst e), to_node (snd e)))) in B'; [exact B'|]] end.
    2:{ intros [s v] I. apply w_doc_str; [|reflexivity]. rewrite A17 in I. apply mputs_in in I as [I|[]]. apply in_map_iff in I as [p [E I]]. injection E as <- _. apply filter_In in I as [_ I]. unfold is_resource_key in I. cbn [fst]. unfold aq, types_name. cbn [str_node value]. apply andb_true_iff in I as [_ I].
        destruct (String.eqb_spec (value (fst p)) "types") as [E|_]; [rewrite E in I; discriminate I|]. destruct (String.eqb_spec (value (fst p)) "schemas") as [E|_]; [rewrite E in I; discriminate I|]. reflexivity. }
    match goal with |- total _ (oput_all _ _ ?m ?o) <= 0 => assert (B : total (w_doc aq never) o <= 0); [|pose proof (w_all (w_doc aq never) (fun k : gkey => k) to_node m o 0 B) as B'; rewrite (total_none (fun e => w_doc aq never (fst e, to_node (snd e)))) in B'; [exact B'|]] end.
    2:{ intros [k v] I. unfold w_doc. cbn [fst snd]. destruct (key_node k) as [m| |] eqn:Ek; [|reflexivity..]. destruct (to_node v) as [vn| |]; [|reflexivity..]. unfold dw. cbn [fst snd never]. rewrite (key_even k m vn R) by (try exact Ek; intros x ->; exact (X x v I)). rewrite Nat.add_0_r, Nat.add_0_r.
        apply extra_read in A18 as [_ A18]. destruct (A18 k v I) as [p [_ [Hp [Sp _]]]]. unfold aq. destruct (is_string m) eqn:Em; [|reflexivity]. cbn [andb].
        destruct k as [|b|s|z|x|u]; cbn [key_node] in Ek; try discriminate Ek; injection Ek as <-; try discriminate Em.
        - apply scalar_str in Sp as [E1 E2]. unfold api_extra_key in Hp. rewrite E1, E2 in Hp. cbn [andb] in Hp. apply negb_true_iff in Hp. apply orb_false_iff in Hp as [_ Hp]. cbn [str_node value]. destruct (types_name s) eqn:T; [|reflexivity]. exfalso. unfold types_name in T. apply orb_true_iff in T. destruct T as [T|T]; apply String.eqb_eq in T; rewrite T in Hp; discriminate Hp.
        - destruct (text_exact x R (X x v I)) as [_ [_ Q]]. unfold float_node. cbn [value]. destruct (types_name (snd (float_text x))) eqn:T; [|reflexivity]. exfalso. apply Q. unfold types_name in T. apply orb_true_iff in T. destruct T as [T|T]; apply String.eqb_eq in T; rewrite T; cbn; tauto. }
    match goal with |- total _ (oput_all _ _ ?m ?o) <= 0 => assert (B : total (w_doc aq never) o <= 0); [|pose proof (w_all (w_doc aq never) KStr untyped_to_yaml m o 0 B) as B'; rewrite (total_none (fun e => w_doc aq never (KStr (fst e), untyped_to_yaml (snd e)))) in B'; [exact B'|]] end.
    2:{ intros [s v] I. apply w_doc_str; [|reflexivity]. apply anns_entries in A16 as [_ A16]. apply aq_paren. cbn [fst]. apply (A16 s v I). }
    repeat first [apply (w_opt_zero (w_doc aq never)); [intros r; apply w_doc_str; reflexivity|]|apply (w_if_zero (w_doc aq never)); [intros r; apply w_doc_str; reflexivity|]].
    exact (w_put (w_doc aq never) (KStr KeyTitle) _ []).
  Qed.
  Lemma api_step n n1 : format_api n = Ok n1 -> at_rest format_api n1 \/ doc_bad aq never n1 < doc_bad aq never n.
  Proof.
    unfold format_api. destruct n as [t s|t s|t l]; try discriminate. destruct (api_unmarshal (Map t l) new_api) as [a| |] eqn:Ea; cbn [bind]; intros E; try discriminate E.
    pose proof (api_read_inv t l a Ea) as I. pose proof (api_write_bad t l a n1 Ea E) as W. pose proof I as [I1 [I2 I3]]. destruct I2 as [[I2 I4]|I2]; [left|right; lia].
    intros n2. destruct (api_unmarshal n1 new_api) as [a1| |] eqn:E1; cbn [bind]; intros E2; try discriminate E2. pose proof (api_again t l a n1 a1 Ea (proj1 (fits_exact _ _ _ I I4)) I2 E E1). congruence.
  Qed.
  Lemma apis_settle n k : nodes n + 1 <= k -> rounds format_api k n = rounds format_api (nodes n + 1) n.
  Proof. apply (rounds_nodes format_api (doc_bad aq never) api_step). intros m. apply doc_bad_nodes. reflexivity. Qed.

  (** ** Libraries *)

  Definition lq (m : node) : bool := types_name (value m).
  Definition lq' (e : node * node) : bool := String.eqb (value (fst e)) "annotationTypes" && is_map (snd e).
  Definition lib_inv (acc : nat) (a : library) : Prop := fits acc (l_types a) (l_extra a).
  Lemma lib_assign_inv acc a e a' : lib_inv acc a -> lib_assign a e = Ok a' -> lib_inv (acc + dw lq never e) a'.
  Proof.
    intros U. unfold lib_assign, dw, lq, never. destruct e as [k v]. cbn [fst snd]. rewrite Nat.add_0_r.
    assert (M : forall x, lib_inv acc x -> lib_inv (acc + ((if types_name (value k) then bad false v else 0) + (if odd_float (k, v) then 1 else 0))) x) by (intros x; apply fits_more).
    destruct (String.eqb (value k) KeyAnnotationTypes); [match goal with |- bind ?r _ = _ -> _ => destruct r as [w| |]; cbn [bind]; intros H; try discriminate H; injection H as <-; exact (M _ U) end|].
    destruct (String.eqb (value k) KeyResourceTypes); [match goal with |- bind ?r _ = _ -> _ => destruct r as [w| |]; cbn [bind]; intros H; try discriminate H; injection H as <-; exact (M _ U) end|].
    change (String.eqb (value k) KeyTypes || String.eqb (value k) KeySchemas)%bool with (types_name (value k)). destruct (types_name (value k)).
    { destruct (read_types (l_types a) v) as [w| |] eqn:E; cbn [bind]; intros H; try discriminate H. injection H as <-. rewrite Nat.add_assoc. apply fits_more. exact (fits_types _ _ _ v w U E). }
    do 4 (match goal with |- (if String.eqb ?y ?z then _ else _) = _ -> _ => destruct (String.eqb y z); [match goal with |- bind ?r _ = _ -> _ => destruct r as [w| |]; cbn [bind]; intros H; try discriminate H; injection H as <-; exact (M _ U) end|] end).
    assert (X : (do s <- to_scalar k; Ok (l_set_extra (kput s (GNode v) (l_extra a)) a)) = Ok a' -> lib_inv (acc + (0 + (if odd_float (k, v) then 1 else 0))) a').
    { destruct (to_scalar k) as [s| |] eqn:E; cbn [bind]; intros H; try discriminate H. injection H as <-. exact (fits_extra acc _ _ (k, v) s v U E). }
    destruct (is_string k); [|exact X]. destruct (value k) as [|c r]; [discriminate|]. destruct (Ascii.eqb c "("); [|exact X]. destruct (read_annotation v) as [w| |]; cbn [bind]; intros H; try discriminate H; injection H as <-; exact (M _ U).
  Qed.
  Lemma lib_read_inv t l a : lib_unmarshal (Map t l) new_library = Ok a -> lib_inv (doc_bad lq never (Map t l)) a.
  Proof.
    intros H. apply (fold_inv lib_assign lib_inv (dw lq never) lib_assign_inv l 0 new_library a); [|exact H]. split; [reflexivity|]. split; [left; split; intros x v []|intros x v []].
  Qed.
  Lemma extra_names l a k v m : lib_actual l a -> text_keys (l_extra a) -> In (k, v) (ents (l_extra a)) -> key_node k = Ok m -> ~ In (value m) lib_names.
  Proof.
    intros (_ & _ & _ & _ & _ & _ & _ & _ & A9) X I Ek. apply extra_read in A9 as [_ A9]. destruct (A9 k v I) as [p [_ [Hp [Sp _]]]].
    destruct k as [|b|s|z|x|u]; cbn [key_node] in Ek; try discriminate Ek; injection Ek as <-.
    - cbn. intuition discriminate.
    - destruct b; cbn; intuition discriminate.
    - apply scalar_str in Sp as [E1 E2]. unfold lib_extra_key in Hp. rewrite E2 in Hp. apply negb_true_iff in Hp. apply orb_false_iff in Hp as [Hp _]. apply orb_false_iff in Hp as [Hp _]. cbn [str_node value]. intros Hi. assert (existsb (String.eqb s) lib_names = true); [|congruence]. apply existsb_exists. exists s. split; [exact Hi|apply String.eqb_refl].
    - destruct (scalar_returns (fst p) (KInt z) Sp) as [n' [Kn Sc]]; [discriminate|]. cbn [key_node] in Kn. injection Kn as <-. intros Hin. unfold int_node in *. cbn [value] in Hin. cbn in Hin.
      repeat (destruct Hin as [Hin|Hin]; [rewrite <- Hin in Sc; vm_compute in Sc; discriminate Sc|]). exact Hin.
    - apply text_exact; [exact R|exact (X x v I)].
  Qed.
  Lemma lib_write_bad t l a n : lib_unmarshal (Map t l) new_library = Ok a -> lib_marshal a = Ok n -> doc_bad lq lq' n <= tb (l_types a).
  Proof.
    intros H W. pose proof (lib_read_inv t l a H) as [_ [_ X]]. rewrite (doc_out lq lq' _ n W). pose proof (lib_reads_all l a H) as D. unfold lib_out.
    match goal with |- total _ (oput_if _ _ _ ?o) <= _ => assert (B : total (w_doc lq lq') o <= 0) end.
    2:{ destruct (nonempty (l_types a)); cbn [oput_if]; [|lia]. pose proof (w_put_at (w_doc lq lq') (KStr KeyTypes) (types_to_yaml to_yaml (l_types a)) _ 0 B) as B'. pose proof (w_doc_types lq lq' KeyTypes (l_types a) (fun _ => eq_refl)). lia. }
    match goal with |- total _ (oput_all _ _ ?m ?o) <= 0 => assert (B : total (w_doc lq lq') o <= 0); [|pose proof (w_all (w_doc lq lq') (fun k : gkey => k) to_node m o 0 B) as B'; rewrite (total_none (fun e => w_doc lq lq' (fst e, to_node (snd e)))) in B'; [exact B'|]] end.
    2:{ intros [k v] I. unfold w_doc. cbn [fst snd]. destruct (key_node k) as [m| |] eqn:Ek; [|reflexivity..]. destruct (to_node v) as [vn| |]; [|reflexivity..]. unfold dw. cbn [fst snd]. rewrite (key_even k m vn R) by (try exact Ek; intros x ->; exact (X x v I)).
        pose proof (extra_names l a k v m D X I Ek) as N. unfold lq, lq', types_name. cbn [fst snd]. repeat (match goal with |- context [String.eqb (value m) ?y] => destruct (String.eqb_spec (value m) y) as [Q|_]; [exfalso; apply N; rewrite Q; cbn; tauto|] end). reflexivity. }
    apply (w_if_zero (w_doc lq lq')); [intros r; apply w_doc_str; reflexivity|].
    destruct D as (_ & _ & _ & _ & _ & A6 & _ & A8 & _).
    match goal with |- total _ (oput_all _ _ ?m ?o) <= 0 => assert (B : total (w_doc lq lq') o <= 0); [|pose proof (w_all (w_doc lq lq') KStr untyped_to_yaml m o 0 B) as B'; rewrite (total_none (fun e => w_doc lq lq' (KStr (fst e), untyped_to_yaml (snd e)))) in B'; [exact B'|]] end.
    2:{ intros [s u] I. apply filled_came in A8. rewrite Forall_forall in A8. destruct (A8 _ I) as [nn Hn]. cbn [snd] in Hn. apply WasRead.annotation_read in Hn as [Ou _]. unfold w_doc, dw. cbn [fst snd key_node]. destruct (untyped_to_yaml u) as [v| |] eqn:E; [|reflexivity..]. destruct (ordered_seq _ _ _ _ Ou E) as [sq ->].
        unfold lq'. cbn [snd is_map]. rewrite andb_false_r. destruct (lq (str_node s)); reflexivity. }
    rewrite A6. cbn [nonempty ents oput_if].
    repeat first [apply (w_opt_zero (w_doc lq lq')); [intros r; apply w_doc_str; reflexivity|]|apply (w_if_zero (w_doc lq lq')); [intros r; apply w_doc_str; reflexivity|]].
    reflexivity.
  Qed.
  Lemma lib_step n n1 : format_library n = Ok n1 -> at_rest format_library n1 \/ doc_bad lq lq' n1 < doc_bad lq lq' n.
  Proof.
    unfold format_library. destruct n as [t s|t s|t l]; try discriminate. destruct (lib_unmarshal (Map t l) new_library) as [a| |] eqn:Ea; cbn [bind]; intros E; try discriminate E.
    pose proof (lib_read_inv t l a Ea) as I. pose proof (lib_write_bad t l a n1 Ea E) as W. pose proof I as [I1 [I2 I3]].
    assert (C : doc_bad lq lq' (Map t l) = doc_bad lq never (Map t l) + count lq' l).
    { cbn [doc_bad]. unfold count. clear. induction l as [|e l IH]; [reflexivity|]. rewrite !total_cons, IH. unfold dw, never. lia. }
    destruct (Nat.eq_dec (count lq' l) 0) as [Z|Z]; [|right; lia]. destruct I2 as [[I2 I4]|I2]; [left|right; lia].
    assert (N : Forall (fun p => text_key "annotationTypes" p = false) l).
    { apply Forall_forall. intros p Ip. destruct (text_key "annotationTypes" p) eqn:T; [|reflexivity]. exfalso. pose proof (proj1 (proj1 (lib_read_all_iff t l a) Ea)) as Acc. rewrite Forall_forall in Acc. destruct (Acc p Ip) as (_ & _ & _ & _ & Q & _). destruct (Q T) as [t' [l' [Em _]]].
      pose proof (total_zero _ _ Z p Ip) as Zp. unfold lq' in Zp. unfold text_key in T. rewrite T, Em in Zp. discriminate Zp. }
    intros n2. destruct (lib_unmarshal n1 new_library) as [a1| |] eqn:E1; cbn [bind]; intros E2; try discriminate E2. destruct (fits_exact _ _ _ I I4) as [Q1 Q2]. pose proof (lib_again t l a n1 a1 Ea N Q1 Q2 I2 E E1). congruence.
  Qed.
  Lemma libraries_settle n k : nodes n + 1 <= k -> rounds format_library k n = rounds format_library (nodes n + 1) n.
  Proof.
    apply (rounds_nodes format_library (doc_bad lq lq') lib_step). intros m. apply doc_bad_nodes. intros m' v H. unfold lq, types_name in H. unfold lq'. cbn [fst]. destruct (String.eqb_spec (value m') "annotationTypes") as [Q|_]; [rewrite Q in H; discriminate H|reflexivity].
  Qed.
End Docs.

(** ** No fixed number of rounds *)
Section Deeper.
  Context {F : FloatIO}.
  Definition gmap (x : node) : node := Map TMap [(str_node "type", str_node "array"); (str_node "items", x)].
  Definition hmap (x : node) : node := Map TMap [(str_node "type", str_node "string"); (str_node "schema", str_node "array"); (str_node "items", x)].
  Definition bottom : node := str_node "string".
  Fixpoint iter (f : node -> node) (k : nat) (x : node) : node := match k with O => x | Datatypes.S k => f (iter f k x) end.
  Lemma format_h x : format_type (hmap x) = Ok (gmap x).
  Proof. reflexivity. Qed.
  Lemma format_g x y : format_type x = Ok y -> format_type (gmap x) = Ok (gmap y).
  Proof.
    unfold format_type. destruct (hat x) as [d| |] eqn:E; cbn [bind]; intros H; try discriminate H.
    assert (G : hat (gmap x) = Ok (TExt (mkBase "array" TyArray (mkMap [] true)) new_ext anew new_common (SArray ArrayDefaultUniqueItems ArrayDefaultMinItems ArrayDefaultMaxItems (Some d)))).
    { rewrite hat_eq. unfold hat_body, gmap. cbn. rewrite E. reflexivity. }
    rewrite G. cbn [bind]. rewrite to_yaml_eq. unfold to_yaml_body. cbn. rewrite H. reflexivity.
  Qed.
  Lemma format_gs k x : forall y, format_type x = Ok y -> format_type (iter gmap k x) = Ok (iter gmap k y).
  Proof. induction k as [|k IH]; intros y H; [exact H|]. cbn [iter]. apply format_g. apply IH. exact H. Qed.
  Lemma iter_in f k x : iter f k (f x) = f (iter f k x).
  Proof. induction k as [|k IH]; [reflexivity|]. cbn [iter]. rewrite IH. reflexivity. Qed.
  Lemma rounds_deep k : forall i j, rounds format_type k (iter gmap i (iter hmap (k + j) bottom)) = Ok (iter gmap (i + k) (iter hmap j bottom)).
  Proof.
    induction k as [|k IH]; intros i j; [rewrite Nat.add_0_r; reflexivity|]. cbn [Nat.add iter rounds]. rewrite (format_gs i _ _ (format_h _)). cbn [bind]. rewrite iter_in. change (gmap (iter gmap i ?y)) with (iter gmap (Datatypes.S i) y). rewrite IH. rewrite Nat.add_succ_r. reflexivity.
  Qed.
  Lemma iter_gmap_inj k x y : iter gmap k x = iter gmap k y -> x = y.
  Proof. induction k as [|k IH]; intros H; [exact H|]. cbn [iter] in H. apply IH. assert (G : forall a b, gmap a = gmap b -> a = b) by (intros a b E; injection E as E; exact E). exact (G _ _ H). Qed.
  Lemma types_unbounded k : exists n a b, rounds format_type k n = Ok a /\ rounds format_type (k + 1) n = Ok b /\ a <> b.
  Proof.
    exists (iter hmap (k + 1) bottom), (iter gmap k (hmap bottom)), (iter gmap (k + 1) bottom). split; [|split].
    - exact (rounds_deep k 0 1).
    - pose proof (rounds_deep (k + 1) 0 0) as H. rewrite Nat.add_0_r in H. exact H.
    - rewrite Nat.add_1_r. cbn [iter]. rewrite <- iter_in. intros H. apply iter_gmap_inj in H. discriminate H.
  Qed.

  (** The same inside documents *)
  Definition in_api (n : node) : node := Map TMap [(str_node "title", str_node "x"); (str_node "types", Map TMap [(str_node "T", n)])].
  Definition in_library (n : node) : node := Map TMap [(str_node "types", Map TMap [(str_node "T", n)])].
  Lemma api_around n m : format_type n = Ok m -> format_api (in_api n) = Ok (in_api m).
  Proof.
    unfold format_type. destruct (hat n) as [d| |] eqn:E; cbn [bind]; intros H; try discriminate H. unfold format_api, api_unmarshal, map_fold, in_api. cbn. rewrite E. cbn. rewrite H. reflexivity.
  Qed.
  Lemma library_around n m : format_type n = Ok m -> format_library (in_library n) = Ok (in_library m).
  Proof.
    unfold format_type. destruct (hat n) as [d| |] eqn:E; cbn [bind]; intros H; try discriminate H. unfold format_library, lib_unmarshal, map_fold, in_library. cbn. rewrite E. cbn. rewrite H. reflexivity.
  Qed.
  Lemma rounds_around format (around : node -> node) : (forall n m, format_type n = Ok m -> format (around n) = Ok (around m)) ->
    forall k n m, rounds format_type k n = Ok m -> rounds format k (around n) = Ok (around m).
  Proof.
    intros A. induction k as [|k IH]; intros n m H; cbn [rounds] in *; [injection H as <-; reflexivity|]. destruct (format_type n) as [n1| |] eqn:E; cbn [bind] in H; try discriminate H. rewrite (A n n1 E). cbn [bind]. apply IH. exact H.
  Qed.
  Lemma apis_unbounded k : exists n a b, rounds format_api k n = Ok a /\ rounds format_api (k + 1) n = Ok b /\ a <> b.
  Proof.
    destruct (types_unbounded k) as [n [a [b [H1 [H2 N]]]]]. exists (in_api n), (in_api a), (in_api b). split; [exact (rounds_around _ _ api_around k n a H1)|]. split; [exact (rounds_around _ _ api_around (k + 1) n b H2)|]. intros Q. apply N. unfold in_api in Q. congruence.
  Qed.
  Lemma libraries_unbounded k : exists n a b, rounds format_library k n = Ok a /\ rounds format_library (k + 1) n = Ok b /\ a <> b.
  Proof.
    destruct (types_unbounded k) as [n [a [b [H1 [H2 N]]]]]. exists (in_library n), (in_library a), (in_library b). split; [exact (rounds_around _ _ library_around k n a H1)|]. split; [exact (rounds_around _ _ library_around (k + 1) n b H2)|]. intros Q. apply N. unfold in_library in Q. congruence.
  Qed.
End Deeper.
