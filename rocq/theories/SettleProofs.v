(** Proofs of C88. *)
From Coq Require Import SpecFloat.
From Verif Require Import Base Num OMap OMapSpec Keys Yaml Values Assign Formats Meta Out Xml Example DataType Marshal Doc Api Library
  AssignProofs TypeFacts Fields FieldProofs FacetSpec FacetProofs DocProofs OrderProofs PathProofs TypeWrite Segs ExProofs Same ExRound TypeSegs WriteSpec WriteProofs
  ReadInv RoundSpec RoundProofs WasRead Writable Stable ApiSpec IdemSpec Idem ApiIdem Sizes SizeProofs Settle.
Local Open Scope nat_scope.

(** ** What is odd about a document *)

(** A key that gives the type; a key that is not a string but reads like an annotation. *)
Definition gives_type (e : node * node) : bool := is_type_key (fst e).
Definition odd_paren (e : node * node) : bool := negb (is_string (fst e)) && starts_paren (value (fst e)).
(** A floating-point key whose text is not that of a floating-point number for YAML. *)
Definition odd_float {F : FloatIO} (e : node * node) : bool :=
  match to_scalar (fst e) with Ok (KFloat x) => match fst (float_text x) with TFloat => false | _ => true end | _ => false end.
Definition count {A} (p : A -> bool) (l : list A) : nat := total (fun a => if p a then 1 else 0) l.

Definition exb {F : FloatIO} (n : node) : nat := match n with Map _ l => count odd_float l | _ => 0 end.
Definition exsb {F : FloatIO} (n : node) : nat := match n with Map _ l => total (fun e => exb (snd e)) l | _ => 0 end.

(** In a type definition ([true]) or a map of type definitions ([false]): keys that give the type once more, odd keys, and those of the definitions inside. *)
Fixpoint bad {F : FloatIO} (b : bool) (n : node) {struct n} : nat :=
  match n with
  | Map _ l =>
    (if b then pred (count gives_type l) + count odd_paren l else 0) +
    list_sum (map (fun e => match e with (k, v) =>
      if b then if String.eqb (value k) "items" then bad true v else if String.eqb (value k) "properties" then bad false v else if String.eqb (value k) "example" then exb v else if String.eqb (value k) "examples" then exsb v else 0
      else bad true v end) l)
  | _ => 0
  end.
Definition wk {F : FloatIO} (s : string) (n : node) : nat := if String.eqb s "items" then bad true n else if String.eqb s "properties" then bad false n else if String.eqb s "example" then exb n else if String.eqb s "examples" then exsb n else 0.
Definition top (l : list (node * node)) : nat := pred (count gives_type l) + count odd_paren l.
Definition within {F : FloatIO} (l : list (node * node)) : nat := total (fun e => wk (value (fst e)) (snd e)) l.
Lemma bad_type {F : FloatIO} t l : bad true (Map t l) = top l + within l.
Proof. cbn [bad]. unfold top, within, total. f_equal. f_equal. apply map_ext. intros [k v]. reflexivity. Qed.
Lemma bad_types {F : FloatIO} t l : bad false (Map t l) = total (fun e => bad true (snd e)) l.
Proof. cbn [bad]. unfold total. cbn [Nat.add]. f_equal. apply map_ext. intros [k v]. reflexivity. Qed.

Lemma total_zero {A} (w : A -> nat) l : total w l = 0 -> forall a, In a l -> w a = 0.
Proof. induction l as [|b l IH]; intros H a I; [destruct I|]. rewrite total_cons in H. destruct I as [->|I]; [lia|]. apply IH; [lia|exact I]. Qed.
Lemma total_none {A} (w : A -> nat) l : (forall a, In a l -> w a = 0) -> total w l = 0.
Proof. induction l as [|b l IH]; intros H; [reflexivity|]. rewrite total_cons, (H b (or_introl eq_refl)). apply IH. intros a I. apply H. right. exact I. Qed.
Lemma count_filter {A} (p : A -> bool) l : count p l = List.length (filter p l).
Proof. unfold count. induction l as [|a l IH]; [reflexivity|]. rewrite total_cons. cbn [filter]. destruct (p a); cbn [List.length]; lia. Qed.

Lemma exb_nodes {F : FloatIO} n : exb n + 1 <= nodes n.
Proof.
  destruct n as [t s|t l|t l]; cbn [exb]; try apply nodes_pos. rewrite nodes_map. assert (count odd_float l <= total pair_nodes l); [|lia]. apply total_le. intros [k v] _. unfold pair_nodes. cbn [fst snd]. pose proof (nodes_pos k). destruct (odd_float _); lia.
Qed.
Lemma exsb_nodes {F : FloatIO} n : exsb n + 1 <= nodes n.
Proof.
  destruct n as [t s|t l|t l]; cbn [exsb]; try apply nodes_pos. rewrite nodes_map. assert (total (fun e => exb (snd e)) l <= total pair_nodes l); [|lia]. apply total_le. intros [k v] _. unfold pair_nodes. cbn [fst snd]. pose proof (exb_nodes v). lia.
Qed.
Lemma bad_nodes {F : FloatIO} n : forall b, bad b n + 1 <= nodes n.
Proof.
  induction n as [n IH] using (well_founded_induction (Wf_nat.well_founded_ltof node nodes)). unfold Wf_nat.ltof in IH. intros b. destruct n as [t s|t l|t l].
  - cbn. lia.
  - cbn [bad nodes]. lia.
  - assert (C : forall v, (exists k, In (k, v) l) -> bad true v + 1 <= nodes v /\ bad false v + 1 <= nodes v).
    { intros v [k I]. assert (nodes v < nodes (Map t l)) by (eapply in_map_less; exact I). split; apply IH; assumption. }
    rewrite nodes_map. destruct b.
    + rewrite bad_type. unfold top, within.
      assert (total (fun e => wk (value (fst e)) (snd e)) l + count gives_type l + count odd_paren l <= total pair_nodes l); [|lia].
      assert (C' : forall e, In e l -> wk (value (fst e)) (snd e) + (if gives_type e then 1 else 0) + (if odd_paren e then 1 else 0) <= pair_nodes e).
      { intros [k v] I. destruct (C v (ex_intro _ k I)) as [C1 C2]. unfold pair_nodes. cbn [fst snd]. pose proof (nodes_pos k). unfold wk, gives_type, odd_paren, is_type_key. cbn [fst].
        destruct (String.eqb_spec (value k) "items") as [->|_]; [cbn -[Nat.add]; destruct (negb (is_string k)); cbn -[Nat.add]; lia|]. destruct (String.eqb_spec (value k) "properties") as [->|_]; [cbn -[Nat.add]; destruct (negb (is_string k)); cbn -[Nat.add]; lia|].
        pose proof (exb_nodes v). pose proof (exsb_nodes v).
        destruct (String.eqb_spec (value k) "example") as [->|_]; [cbn -[Nat.add exb]; destruct (negb (is_string k)); cbn -[Nat.add exb]; lia|]. destruct (String.eqb_spec (value k) "examples") as [->|_]; [cbn -[Nat.add exsb]; destruct (negb (is_string k)); cbn -[Nat.add exsb]; lia|].
        pose proof (nodes_pos v). destruct (_ || _)%bool; destruct (_ && _)%bool; lia. }
      clear -C'. induction l as [|e l IH]; [reflexivity|]. unfold count in *. rewrite !total_cons. pose proof (C' e (or_introl eq_refl)). specialize (IH (fun e I => C' e (or_intror I))). lia.
    + rewrite bad_types. assert (total (fun e => bad true (snd e)) l <= total pair_nodes l); [|lia]. apply total_le. intros [k v] I. destruct (C v (ex_intro _ k I)) as [C1 _]. unfold pair_nodes. cbn [fst snd]. pose proof (nodes_pos k). lia.
Qed.

Section Settle.
  Context {F : FloatIO}.

  (** ** What is written *)

  Definition br (b : bool) (r : res node) : nat := match r with Ok n => bad b n | _ => 0 end.
  Definition bt (d : dtype) : nat := br true (to_yaml d).

  (** Any weight of written entries *)
  Section Weight.
    Variable w : gkey * res node -> nat.
    Definition other_keys : list string :=
      [KeyDisplayName; KeyDescription; KeyRequired; KeyFacets; KeyXML; KeyUniqueItems; KeyMinItems; KeyMaxItems; KeyFormat; KeyFileTypes; KeyMinLength; KeyMaxLength; KeyMinimum; KeyMaximum; KeyMultipleOf;
       KeyAddtlProps; KeyMinProperties; KeyMaxProperties; KeyDiscriminator; KeyDiscriminatorVal; KeyPattern; KeyDefault; KeyEnum].
    Hypothesis other_zero : forall s r, In s other_keys -> w (KStr s, r) = 0.

    Lemma w_put k v o : total w (oput k v o) <= total w o + w (k, v).
    Proof. exact (total_sput gkey_eqb w k v o). Qed.
    Lemma w_put_at k v o a : total w o <= a -> total w (oput k v o) <= a + w (k, v).
    Proof. intros H. pose proof (w_put k v o). lia. Qed.
    Lemma w_opt_other s v o a : In s other_keys -> total w o <= a -> total w (oput_opt (KStr s) v o) <= a.
    Proof. intros I H. destruct v as [r|]; cbn [oput_opt]; [|exact H]. pose proof (w_put (KStr s) r o) as B. rewrite (other_zero s r I) in B. lia. Qed.
    Lemma w_if_other c s v o a : In s other_keys -> total w o <= a -> total w (oput_if c (KStr s) v o) <= a.
    Proof. intros I H. destruct c; cbn [oput_if]; [|exact H]. pose proof (w_put (KStr s) v o) as B. rewrite (other_zero s v I) in B. lia. Qed.
    Lemma w_opt_zero k v o a : (forall r, w (k, r) = 0) -> total w o <= a -> total w (oput_opt k v o) <= a.
    Proof. intros I H. destruct v as [r|]; cbn [oput_opt]; [|exact H]. pose proof (w_put k r o) as B. rewrite (I r) in B. lia. Qed.
    Lemma w_if_zero c k v o a : (forall r, w (k, r) = 0) -> total w o <= a -> total w (oput_if c k v o) <= a.
    Proof. intros I H. destruct c; cbn [oput_if]; [|exact H]. pose proof (w_put k v o) as B. rewrite (I v) in B. lia. Qed.
    Lemma w_all {K V} (kf : K -> gkey) (vf : V -> res node) l : forall o a, total w o <= a -> total w (oput_all kf vf l o) <= a + total (fun e => w (kf (fst e), vf (snd e))) l.
    Proof.
      unfold oput_all. induction l as [|e l IH]; intros o a H; [cbn [fold_left]; lia|]. cbn [fold_left]. rewrite total_cons, Nat.add_assoc. apply IH. apply w_put_at. exact H.
    Qed.
    Definition spec_w (s : spec dtype) : nat :=
      match s with
      | SArray _ _ _ (Some t) => w (KStr KeyItems, to_yaml t)
      | SObject ps _ _ _ _ _ => if nonempty ps then w (KStr KeyProperties, types_to_yaml to_yaml ps) else 0
      | _ => 0
      end.
    Definition ex_w (c : common) : nat := match c_example c with Some e => w (KStr KeyExample, ex_to_yaml e) | None => 0 end + if nonempty (c_examples c) then w (KStr KeyExamples, examples_to_yaml (c_examples c)) else 0.
    Definition type_w (d : dtype) : nat :=
      match d with
      | TBase b => w (KStr KeyType, Ok (type_node b)) + total (fun e => w (fst e, to_node (snd e))) (ents (b_extra b))
      | TExt b x f c s => w (KStr KeyType, Ok (str_node (b_schema b))) + total (fun e => w (fst e, to_node (snd e))) (ents (b_extra b)) + total (fun e => w (KStr (fst e), untyped_to_yaml (snd e))) (ents (x_anns x)) + spec_w s + ex_w c
      end.
    Ltac other := repeat first [apply w_opt_other; [unfold other_keys; cbn [In]; tauto|]|apply w_if_other; [unfold other_keys; cbn [In]; tauto|]].
    Lemma spec_weight s o a : total w o <= a -> total w (spec_marshal to_yaml s o) <= a + spec_w s.
    Proof.
      intros H. destruct s as [|u mn mx it|f|ft mn mx|f mn mx mu|f mn mx mu|ps mn mx ad di dv|p mn mx]; cbn [spec_marshal spec_w]; rewrite ?Nat.add_0_r; try (other; exact H); try exact H.
      - destruct it as [t|]; cbn [oput_opt option_map]; [apply w_put_at|rewrite Nat.add_0_r]; other; exact H.
      - destruct (nonempty ps); cbn [oput_if]; [apply w_put_at|rewrite Nat.add_0_r]; other; exact H.
    Qed.
    Lemma type_weight d : total w (type_marshal to_yaml d []) <= type_w d.
    Proof.
      destruct d as [b|b x f c s]; cbn [type_marshal type_w].
      - unfold short_marshal, include_marshal, base_marshal, type_node. destruct (b_kind b); apply (w_all (fun k : gkey => k) to_node); exact (w_put (KStr KeyType) _ []).
      - unfold full_marshal, ex_w. match goal with |- _ <= ?a + (_ + _) => assert (S : total w (oput_opt (KStr KeyEnum) (option_map (fun l => to_node (GList l)) (c_enum c)) (spec_marshal to_yaml s (ext_marshal to_yaml b x f (oput_opt (KStr KeyDefault) (option_map to_node (c_def c)) [])))) <= a) end.
        2:{ rewrite Nat.add_assoc. destruct (nonempty (c_examples c)); cbn [oput_if]; [apply w_put_at|rewrite Nat.add_0_r]; (destruct (c_example c); cbn [oput_opt option_map]; [apply w_put_at|rewrite Nat.add_0_r]); exact S. }
        other. apply spec_weight. unfold ext_marshal. other. apply (w_all KStr untyped_to_yaml). other. unfold base_marshal. apply (w_all (fun k : gkey => k) to_node). refine (w_put_at (KStr KeyType) _ _ 0 _). other. reflexivity.
    Qed.
  End Weight.

  Definition wg (e : gkey * gval) : nat := match e with (KStr s, GNode n) => wk s n | _ => 0 end.
  Definition ws (s : spec dtype) : nat :=
    match s with
    | SArray _ _ _ (Some t) => bt t
    | SObject ps _ _ _ _ _ => total (fun e => bt (snd e)) (ents ps)
    | _ => 0
    end.
  Definition wx (b : base) : nat := total wg (ents (b_extra b)).
  Definition wd (d : dtype) : nat := match d with TBase b => wx b | TExt b x f c s => wx b + ws s end.

  Lemma types_bad m : br false (types_to_yaml to_yaml m) <= total (fun e => bt (snd e)) (ents m).
  Proof.
    unfold types_to_yaml, map_to_yaml. destruct (oord m).
    - destruct (map_res _ (ents m)) as [l| |]; cbn [bind br bad]; lia.
    - destruct (map_res _ (ents m)) as [l| |] eqn:E; cbn [bind br]; try lia. rewrite bad_types. revert l E. induction (ents m) as [|e es IH]; intros l E; cbn [map_res] in E; [injection E as <-; reflexivity|].
      destruct (entry_node skey_node to_yaml e) as [p| |] eqn:Ep; try discriminate E. cbn [bind] in E. destruct (map_res _ es) as [l'| |]; try discriminate E. injection E as <-. rewrite !total_cons. specialize (IH l' eq_refl).
      unfold entry_node, skey_node in Ep. cbn [bind] in Ep. destruct (to_yaml (snd e)) as [v| |] eqn:Ev; try discriminate Ep. injection Ep as <-. unfold bt at 1. rewrite Ev. cbn [snd br]. lia.
  Qed.

  (** ** Floating-point numbers *)

  Definition from_text (x : spec_float) : Prop := exists t s, float_of t s = Some x.
  Lemma to_float_text n x : to_float n = Ok x -> from_text x.
  Proof. destruct n as [t s|t l|t l]; cbn [to_float]; intros H; try discriminate H. exists t, s. destruct (float_of t s); [injection H as ->; reflexivity|discriminate H]. Qed.
  Lemma to_scalar_text n x : to_scalar n = Ok (KFloat x) -> from_text x.
  Proof.
    destruct n as [t s|t l|t l]; cbn [to_scalar]; intros H; try discriminate H. destruct t; try discriminate H; try (destruct (parse_bool s); discriminate H); try (destruct (parse_int64 s); discriminate H). exists TFloat, s. destruct (float_of TFloat s); [injection H as ->; reflexivity|discriminate H].
  Qed.
  Lemma text_exact x : floats_return -> from_text x -> exact_float x /\ (fst (float_text x) = TFloat -> to_scalar (float_node x) = Ok (KFloat x)) /\ ~ In (snd (float_text x)) lib_names.
  Proof.
    intros R [t [s H]]. destruct (R t s x H) as [B C]. unfold exact_float, denotes_float, float_node. split; [exists (fst (float_text x)), (snd (float_text x)); split; [reflexivity|exact B]|].
    split; [|exact C]. intros A. rewrite A in *. cbn [to_scalar]. rewrite B. reflexivity.
  Qed.
  Lemma ex_val_text kd n x : ex_val kd n = Ok (GFloat x) -> from_text x.
  Proof.
    destruct kd; cbn [ex_val]; intros H; try discriminate H; try (match type of H with bind ?r _ = _ => destruct r eqn:E end; cbn [bind] in H; try discriminate H).
    - destruct n; discriminate H.
    - injection H as <-. eapply to_float_text. exact E.
  Qed.
  Definition ex_text (e : ex) : Prop := (forall x, ex_value e = Some (GFloat x) -> from_text x) /\ (forall x v, In (KFloat x, v) (ents (ex_extra e)) -> from_text x).
  Lemma ex_extra_text e k v : ex_text e -> (forall x, k = KFloat x -> from_text x) -> ex_text (ex_set_extra e k v).
  Proof.
    intros [A B] C. split; [exact A|]. intros x w I. change (ents (ex_extra (ex_set_extra e k v))) with (sput gkey_eqb k (GNode v) (ents (ex_extra e))) in I. unfold sput, sdelete in I. apply in_app_or in I as [I|[I|[]]]; [apply filter_In in I as [I _]; exact (B x w I)|]. injection I as E _. exact (C x E).
  Qed.
  Lemma ex_assign_text kd e p e' : ex_text e -> ex_assign kd e p = Ok e' -> ex_text e'.
  Proof.
    intros X. unfold ex_assign. destruct (negb (is_string (fst p))).
    - destruct (to_scalar (fst p)) as [k| |] eqn:E; cbn [bind]; intros H; try discriminate H. injection H as <-. apply ex_extra_text; [exact X|]. intros x ->. eapply to_scalar_text. exact E.
    - destruct (value (fst p)) as [|c r]; [discriminate|]. destruct (Ascii.eqb c "("); [destruct (read_annotation (snd p)); cbn [bind]; intros H; try discriminate H; injection H as <-; exact X|].
      destruct (String.eqb _ KeyDisplayName); [destruct (run_assign _); cbn [bind]; intros H; try discriminate H; injection H as <-; exact X|].
      destruct (String.eqb _ KeyDescription); [destruct (run_assign _); cbn [bind]; intros H; try discriminate H; injection H as <-; exact X|].
      destruct (String.eqb _ KeyStrict); [destruct (run_assign _); cbn [bind]; intros H; try discriminate H; injection H as <-; exact X|].
      destruct (String.eqb _ KeyValue); [destruct (ex_val kd (snd p)) as [g| |] eqn:E; cbn [bind]; intros H; try discriminate H; injection H as <-; destruct X as [_ X]; split; [|exact X]; intros x Q; cbn [ex_value] in Q; injection Q as ->; eapply ex_val_text; exact E|].
      destruct (to_scalar (fst p)) as [k| |] eqn:E; cbn [bind]; intros H; try discriminate H. injection H as <-. apply ex_extra_text; [exact X|]. intros x ->. eapply to_scalar_text. exact E.
  Qed.
  Lemma read_ex_text kd n e : read_ex kd n = Ok e -> ex_text e.
  Proof.
    assert (N : ex_text new_ex) by (split; [discriminate|intros x v []]).
    assert (V : forall m, (do v <- ex_val kd m; Ok (mkEx (ex_display new_ex) (ex_descr new_ex) (ex_anns new_ex) (Some v) (ex_strict new_ex) (ex_extra new_ex))) = Ok e -> ex_text e).
    { intros m. destruct (ex_val kd m) as [g| |] eqn:E; cbn [bind]; intros H; try discriminate H. injection H as <-. split; [|intros x v []]. intros x Q. cbn [ex_value] in Q. injection Q as ->. eapply ex_val_text. exact E. }
    unfold read_ex, ex_unmarshal. destruct n as [t s|t l|t l]; try apply V. clear V. revert N. generalize new_ex as e0. induction l as [|p l IH]; intros e0 N H; cbn [fold_res] in H; [injection H as <-; exact N|].
    destruct (ex_assign kd e0 p) as [e1| |] eqn:E; cbn [bind] in H; try discriminate H. exact (IH e1 (ex_assign_text kd e0 p e1 N E) H).
  Qed.
  (** No floating-point key is written that would change. *)
  Lemma key_even k m v : floats_return -> (forall x, k = KFloat x -> from_text x) -> key_node k = Ok m -> odd_float (m, v) = false.
  Proof.
    intros R T. unfold odd_float. cbn [fst]. destruct k as [|b|s|z|x|u]; cbn [key_node]; intros E; try discriminate E; injection E as <-; try reflexivity.
    - cbn [bool_node to_scalar]. destruct (opt_res _); reflexivity.
    - cbn [int_node to_scalar]. destruct (opt_res _); reflexivity.
    - destruct (text_exact x R (T x eq_refl)) as [_ [Q _]]. unfold float_node in *. destruct (fst (float_text x)) eqn:E; try reflexivity; cbn [to_scalar]; try (match goal with |- context [bind ?r _] => destruct r; reflexivity end).
      specialize (Q eq_refl). cbn [to_scalar] in Q. rewrite Q, E. reflexivity.
  Qed.
  Definition w_float (e : gkey * res node) : nat := match key_node (fst e) with Ok m => if odd_float (m, m) then 1 else 0 | _ => 0 end.
  Lemma odd_float_key m v v' : odd_float (m, v) = odd_float (m, v'). Proof. reflexivity. Qed.
  Lemma ex_even e n : floats_return -> ex_text e -> ex_to_yaml e = Ok n -> exb n = 0.
  Proof.
    intros R [_ X] H. unfold ex_to_yaml in H. apply out_to_yaml_ok in H as [l [-> W]]. cbn [exb].
    assert (Z : total w_float (fst (ex_marshal e [])) = 0).
    { unfold ex_marshal. destruct (ex_expand e); cbn [fst]; [|pose proof (w_put w_float (KStr EmptyString) (opt_node (ex_value e)) []) as B; change (w_float (KStr EmptyString, opt_node (ex_value e))) with 0 in B; change (total w_float []) with 0 in B; lia].
      match goal with |- total _ (oput_all _ _ _ ?o) = 0 => assert (B : total w_float o <= 0) end.
      { match goal with |- total _ (oput_all _ _ ?m ?o) <= 0 => assert (B : total w_float o <= 0) end.
        { repeat first [apply (w_opt_zero w_float); [reflexivity|]|apply (w_if_zero w_float); [reflexivity|]]. reflexivity. }
        pose proof (w_all w_float KStr untyped_to_yaml (ents (ex_anns e)) _ 0 B) as B'. rewrite (total_none (fun e => w_float (KStr (fst e), untyped_to_yaml (snd e)))) in B' by reflexivity. exact B'. }
      pose proof (w_all w_float (fun k : gkey => k) to_node (ents (ex_extra e)) _ 0 B) as B'. rewrite (total_none (fun e => w_float (fst e, to_node (snd e)))) in B'; [lia|]. intros [k g] I. unfold w_float. cbn [fst]. destruct (key_node k) as [m| |] eqn:Ek; try reflexivity. rewrite (key_even k m m R); [reflexivity| |exact Ek]. intros x ->. exact (X x g I). }
    apply total_none. intros [k v] I. destruct (odd_float (k, v)) eqn:Ef; [|reflexivity]. exfalso. clear -W Z I Ef. induction W as [|[kg r] [kn vn] o l' [K V] W IH]; [destruct I|]. rewrite total_cons in Z. destruct I as [I|I]; [|apply IH; [lia|exact I]].
    injection I as -> ->. cbn [fst] in K. unfold w_float in Z. cbn [fst] in Z. rewrite K in Z. rewrite (odd_float_key k k v), Ef in Z. lia.
  Qed.
  Lemma exs_even m n : floats_return -> (forall s e, In (s, e) (ents m) -> ex_text e) -> examples_to_yaml m = Ok n -> exsb n = 0.
  Proof.
    intros R X. unfold examples_to_yaml, map_to_yaml. destruct (oord m).
    - destruct (map_res _ (ents m)) as [l| |]; cbn [bind]; intros H; try discriminate H. injection H as <-. reflexivity.
    - destruct (map_res _ (ents m)) as [l| |] eqn:E; cbn [bind]; intros H; try discriminate H. injection H as <-. cbn [exsb]. revert l E X. induction (ents m) as [|e es IH]; intros l E X; cbn [map_res] in E; [injection E as <-; reflexivity|].
      destruct (entry_node skey_node ex_to_yaml e) as [q| |] eqn:Ep; try discriminate E. cbn [bind] in E. destruct (map_res _ es) as [l'| |]; try discriminate E. injection E as <-. rewrite total_cons. rewrite (IH l' eq_refl); [|intros s e0 I; apply (X s e0); right; exact I].
      unfold entry_node, skey_node in Ep. cbn [bind] in Ep. destruct (ex_to_yaml (snd e)) as [v| |] eqn:Ev; try discriminate Ep. injection Ep as <-. cbn [snd]. rewrite (ex_even (snd e) v R); [reflexivity| |exact Ev]. apply (X (fst e)). left. destruct e; reflexivity.
  Qed.

  (** Every floating-point key of an example keeps its type. *)
  Definition ex_even_keys (e : ex) : Prop := forall x v, In (KFloat x, v) (ents (ex_extra e)) -> fst (float_text x) = TFloat.
  Lemma ex_exact e : floats_return -> ex_text e -> ex_even_keys e -> exact_ex e.
  Proof. intros R [A B] C. split; [intros x H; apply text_exact; [exact R|exact (A x H)]|intros x v H; apply text_exact; [exact R|exact (B x v H)|exact (C x v H)]]. Qed.
  Lemma even_put e k v key val : ex_even_keys e -> odd_float (key, val) = false -> to_scalar key = Ok k -> ex_even_keys (ex_set_extra e k v).
  Proof.
    intros X O S x w I. change (ents (ex_extra (ex_set_extra e k v))) with (sput gkey_eqb k (GNode v) (ents (ex_extra e))) in I. unfold sput, sdelete in I. apply in_app_or in I as [I|[I|[]]]; [apply filter_In in I as [I _]; exact (X x w I)|]. injection I as -> _.
    unfold odd_float in O. cbn [fst] in O. rewrite S in O. destruct (fst (float_text x)); try discriminate O. reflexivity.
  Qed.
  Lemma ex_assign_even kd e p e' : ex_even_keys e -> odd_float p = false -> ex_assign kd e p = Ok e' -> ex_even_keys e'.
  Proof.
    intros X O. destruct p as [key val]. unfold ex_assign. cbn [fst snd]. destruct (negb (is_string key)).
    - destruct (to_scalar key) as [k| |] eqn:E; cbn [bind]; intros H; try discriminate H. injection H as <-. exact (even_put e k val key val X O E).
    - destruct (value key) as [|c r]; [discriminate|]. destruct (Ascii.eqb c "("); [destruct (read_annotation val); cbn [bind]; intros H; try discriminate H; injection H as <-; exact X|].
      destruct (String.eqb _ KeyDisplayName); [destruct (run_assign _); cbn [bind]; intros H; try discriminate H; injection H as <-; exact X|].
      destruct (String.eqb _ KeyDescription); [destruct (run_assign _); cbn [bind]; intros H; try discriminate H; injection H as <-; exact X|].
      destruct (String.eqb _ KeyStrict); [destruct (run_assign _); cbn [bind]; intros H; try discriminate H; injection H as <-; exact X|].
      destruct (String.eqb _ KeyValue); [destruct (ex_val kd val) as [g| |] eqn:E; cbn [bind]; intros H; try discriminate H; injection H as <-; exact X|].
      destruct (to_scalar key) as [k| |] eqn:E; cbn [bind]; intros H; try discriminate H. injection H as <-. exact (even_put e k val key val X O E).
  Qed.
  Lemma read_ex_even kd n e : read_ex kd n = Ok e -> exb n = 0 -> ex_even_keys e.
  Proof.
    assert (V : forall m, (do v <- ex_val kd m; Ok (mkEx (ex_display new_ex) (ex_descr new_ex) (ex_anns new_ex) (Some v) (ex_strict new_ex) (ex_extra new_ex))) = Ok e -> ex_even_keys e).
    { intros m. destruct (ex_val kd m) as [g| |] eqn:E; cbn [bind]; intros H; try discriminate H. injection H as <-. intros x v []. }
    unfold read_ex, ex_unmarshal. destruct n as [t s|t l|t l]; intros H Z; try (exact (V _ H)). clear V. cbn [exb] in Z. assert (N : ex_even_keys new_ex) by (intros x v []). revert N H. generalize new_ex as e0. induction l as [|p l IH]; intros e0 N H; cbn [fold_res] in H; [injection H as <-; exact N|].
    unfold count in *. rewrite total_cons in Z. destruct (ex_assign kd e0 p) as [e1| |] eqn:E; cbn [bind] in H; try discriminate H. destruct (odd_float p) eqn:O; [lia|]. exact (IH Z e1 (ex_assign_even kd e0 p e1 N O E) H).
  Qed.
  Lemma read_exs_even kd m n m' : read_examples kd m n = Ok m' -> exsb n = 0 -> (forall s e, In (s, e) (ents m) -> ex_even_keys e) -> forall s e, In (s, e) (ents m') -> ex_even_keys e.
  Proof.
    unfold read_examples, read_amap, map_fold. destruct n as [t s|t s|t l]; try discriminate. cbn [exsb]. revert m. induction l as [|[k v] l IH]; intros m H Z X; cbn [fold_res] in H; [injection H as <-; exact X|]. rewrite total_cons in Z. cbn [snd] in Z.
    unfold read_amap_pair at 1 in H. cbn [fst snd] in H. destruct (to_str k) as [s| |]; cbn [bind] in H; try discriminate H. destruct (read_ex kd v) as [d| |] eqn:Ed; cbn [bind] in H; try discriminate H. apply (IH _ H); [lia|].
    intros k' t' I. change (ents (mput s d m)) with (sput String.eqb s d (ents m)) in I. unfold sput, sdelete in I. apply in_app_or in I as [I|[I|[]]]; [apply filter_In in I as [I _]; exact (X k' t' I)|]. injection I as <- <-. eapply read_ex_even; [exact Ed|lia].
  Qed.

  (** What is known of the extra facets and annotations of what was read *)
  Definition exs_of (c : common) (P : ex -> Prop) : Prop := (forall e, c_example c = Some e -> P e) /\ (forall s e, In (s, e) (ents (c_examples c)) -> P e).
  Definition plain_parts (d : dtype) : Prop :=
    (forall k g, In (k, g) (ents (b_extra (d_base d))) -> exists s n, k = KStr s /\ g = GNode n /\ s <> "type" /\ s <> "schema") /\
    match d with TExt _ x _ c _ => (forall s a, In (s, a) (ents (x_anns x)) -> starts_paren s = true) /\ exs_of c ex_text | TBase _ => True end.
  Lemma read_plain n d : hat n = Ok d -> plain_parts d.
  Proof.
    intros H. split.
    - intros k g I. pose proof (hat_read n d H FExtra _ (getf_extra d)) as R. cbn [field_read] in R. destruct R as [_ R]. destruct (R k g I) as [[s ->] [m ->]]. exists s, m. split; [reflexivity|]. split; [reflexivity|].
      assert (K : ~ In s (known_keys (d_kind d))).
      { apply (extra_unknown n d s H). unfold extra_keys. apply (in_map fst) in I. exact I. }
      unfold known_keys in K. split; intros ->; apply K; [left; reflexivity|right; left; reflexivity].
    - destruct d as [b|b x f c s]; [exact I|]. split; [|split].
      2:{ intros e E. pose proof (hat_read n _ H FExample (VEx (c_example c)) eq_refl) as R. cbn [field_read] in R. rewrite E in R. destruct R as [_ [m R]]. eapply read_ex_text. exact R. }
      2:{ intros k e I. pose proof (hat_read n _ H FExamples (VExs (c_examples c)) eq_refl) as R. cbn [field_read] in R. destruct R as [_ [_ R]]. destruct (R k e I) as [m Q]. eapply read_ex_text. exact Q. }
      intros k a I. pose proof (hat_read n _ H FAnns (VAnns (x_anns x)) eq_refl) as R. cbn [field_read] in R. destruct R as [_ [_ R]]. apply (R k a I).
  Qed.

  Definition w_odd (e : gkey * res node) : nat := match fst e with KStr _ => 0 | _ => 1 end.
  Definition w_type (e : gkey * res node) : nat := match fst e with KStr s => if String.eqb s "type" || String.eqb s "schema" then 1 else 0 | _ => 0 end.
  Definition w_in (e : gkey * res node) : nat := match e with (KStr s, Ok n) => wk s n | _ => 0 end.
  Definition w_top (e : gkey * res node) : nat := match fst e with KStr s => if String.eqb s "type" then br true (snd e) else 0 | _ => 0 end.
  Ltac each := intros s r I; unfold other_keys in I; cbn [In] in I; repeat (destruct I as [<-|I]; [try (destruct r; reflexivity)|]); destruct I.
  Lemma zero_odd s r : In s other_keys -> w_odd (KStr s, r) = 0. Proof. reflexivity. Qed.
  Lemma zero_type : forall s r, In s other_keys -> w_type (KStr s, r) = 0. Proof. each. Qed.
  Lemma zero_in : forall s r, In s other_keys -> w_in (KStr s, r) = 0. Proof. each. Qed.
  Lemma zero_top : forall s r, In s other_keys -> w_top (KStr s, r) = 0. Proof. each. Qed.
  Lemma paren_not s t : starts_paren s = true -> starts_paren t = false -> String.eqb s t = false.
  Proof. intros H H'. apply String.eqb_neq. congruence. Qed.
  Lemma weigh_odd d : plain_parts d -> total w_odd (type_marshal to_yaml d []) = 0.
  Proof.
    intros [P1 P2]. pose proof (type_weight w_odd zero_odd d) as B. assert (Z : type_w w_odd d = 0); [|lia].
    assert (X : forall b, (forall k g, In (k, g) (ents (b_extra b)) -> exists s n, k = KStr s /\ g = GNode n /\ s <> "type" /\ s <> "schema") -> total (fun e => w_odd (fst e, to_node (snd e))) (ents (b_extra b)) = 0).
    { intros b P. apply total_none. intros [k g] I. destruct (P k g I) as [s [n [-> _]]]. reflexivity. }
    destruct d as [b|b x f c s]; cbn [type_w]; rewrite (X b P1); [reflexivity|]. rewrite total_none by reflexivity. replace (ex_w w_odd c) with 0 by (unfold ex_w; destruct (c_example c); destruct (nonempty (c_examples c)); reflexivity). destruct s as [|u mn mx [t|]|f0|ft mn mx|f0 mn mx mu|f0 mn mx mu|ps mn mx ad di dv|p mn mx]; cbn [spec_w w_odd fst]; try reflexivity. destruct (nonempty ps); reflexivity.
  Qed.
  Lemma weigh_type d : plain_parts d -> total w_type (type_marshal to_yaml d []) <= 1.
  Proof.
    intros [P1 P2]. pose proof (type_weight w_type zero_type d) as B. assert (Z : type_w w_type d = 1); [|lia].
    assert (X : forall b, (forall k g, In (k, g) (ents (b_extra b)) -> exists s n, k = KStr s /\ g = GNode n /\ s <> "type" /\ s <> "schema") -> total (fun e => w_type (fst e, to_node (snd e))) (ents (b_extra b)) = 0).
    { intros b P. apply total_none. intros [k g] I. destruct (P k g I) as [s [n [-> [_ [N1 N2]]]]]. unfold w_type. cbn [fst]. apply String.eqb_neq in N1, N2. rewrite N1, N2. reflexivity. }
    destruct d as [b|b x f c s]; cbn [type_w]; rewrite (X b P1); [reflexivity|].
    destruct P2 as [P2 _]. replace (ex_w w_type c) with 0 by (unfold ex_w; destruct (c_example c); destruct (nonempty (c_examples c)); reflexivity).
    rewrite (total_none (fun e => w_type (KStr (fst e), untyped_to_yaml (snd e)))).
    2:{ intros [k a] I. unfold w_type. cbn [fst]. specialize (P2 k a I). rewrite !(paren_not k) by (exact P2 || reflexivity). reflexivity. }
    destruct s as [|u mn mx [t|]|f0|ft mn mx|f0 mn mx mu|f0 mn mx mu|ps mn mx ad di dv|p mn mx]; cbn [spec_w]; try reflexivity. destruct (nonempty ps); reflexivity.
  Qed.
  Lemma weigh_top d : plain_parts d -> total w_top (type_marshal to_yaml d []) = 0.
  Proof.
    intros [P1 P2]. pose proof (type_weight w_top zero_top d) as B. assert (Z : type_w w_top d = 0); [|lia].
    assert (X : forall b, (forall k g, In (k, g) (ents (b_extra b)) -> exists s n, k = KStr s /\ g = GNode n /\ s <> "type" /\ s <> "schema") -> total (fun e => w_top (fst e, to_node (snd e))) (ents (b_extra b)) = 0).
    { intros b P. apply total_none. intros [k g] I. destruct (P k g I) as [s [n [-> [_ [N1 N2]]]]]. unfold w_top. cbn [fst]. apply String.eqb_neq in N1. rewrite N1. reflexivity. }
    destruct d as [b|b x f c s]; cbn [type_w]; rewrite (X b P1).
    { unfold w_top, type_node. cbn [fst snd]. destruct (b_kind b); reflexivity. }
    destruct P2 as [P2 _]. replace (ex_w w_top c) with 0 by (unfold ex_w; destruct (c_example c); destruct (nonempty (c_examples c)); reflexivity).
    rewrite (total_none (fun e => w_top (KStr (fst e), untyped_to_yaml (snd e)))).
    2:{ intros [k a] I. unfold w_top. cbn [fst]. specialize (P2 k a I). rewrite (paren_not k) by (exact P2 || reflexivity). reflexivity. }
    destruct s as [|u mn mx [t|]|f0|ft mn mx|f0 mn mx mu|f0 mn mx mu|ps mn mx ad di dv|p mn mx]; cbn [spec_w]; try reflexivity. destruct (nonempty ps); reflexivity.
  Qed.
  Lemma weigh_in d : floats_return -> plain_parts d -> total w_in (type_marshal to_yaml d []) <= wd d.
  Proof.
    intros R [P1 P2]. pose proof (type_weight w_in zero_in d) as B. assert (Z : type_w w_in d <= wd d); [|lia].
    assert (X : forall b, (forall k g, In (k, g) (ents (b_extra b)) -> exists s n, k = KStr s /\ g = GNode n /\ s <> "type" /\ s <> "schema") -> total (fun e => w_in (fst e, to_node (snd e))) (ents (b_extra b)) <= wx b).
    { intros b P. apply total_le. intros [k g] I. destruct (P k g I) as [s [n [-> [-> _]]]]. reflexivity. }
    destruct d as [b|b x f c s]; cbn [type_w wd].
    { specialize (X b P1). change (w_in (KStr KeyType, Ok (type_node b))) with 0. lia. }
    specialize (X b P1). change (w_in (KStr KeyType, Ok (str_node (b_schema b)))) with 0.
    destruct P2 as [P2 [P3 P4]]. assert (Ex : ex_w w_in c = 0).
    { unfold ex_w. assert (E1 : match c_example c with Some e => w_in (KStr KeyExample, ex_to_yaml e) | None => 0 end = 0).
      - destruct (c_example c) as [e|]; [|reflexivity]. unfold w_in. destruct (ex_to_yaml e) as [n| |] eqn:E; try reflexivity. exact (ex_even e n R (P3 e eq_refl) E).
      - rewrite E1. destruct (nonempty (c_examples c)); [|reflexivity]. unfold w_in. destruct (examples_to_yaml (c_examples c)) as [n| |] eqn:E; try reflexivity. exact (exs_even _ n R P4 E). }
    rewrite Ex. rewrite (total_none (fun e => w_in (KStr (fst e), untyped_to_yaml (snd e)))).
    2:{ intros [k a] I. unfold w_in, wk. cbn [fst snd]. destruct (untyped_to_yaml a) as [n| |]; try reflexivity. specialize (P2 k a I). rewrite !(paren_not k) by (exact P2 || reflexivity). reflexivity. }
    assert (spec_w w_in s <= ws s); [|lia].
    destruct s as [|u mn mx [t|]|f0|ft mn mx|f0 mn mx mu|f0 mn mx mu|ps mn mx ad di dv|p mn mx]; cbn [spec_w ws]; try lia.
    - unfold bt, br, w_in. destruct (to_yaml t) as [n| |]; reflexivity.
    - pose proof (types_bad ps) as T. unfold br in T. destruct (nonempty ps); [|lia]. unfold w_in. destruct (types_to_yaml to_yaml ps) as [n| |]; [exact T|lia..].
  Qed.
  Lemma bt_le d : floats_return -> plain_parts d -> bt d <= wd d.
  Proof.
    intros R P. pose proof (weigh_odd d P) as B1. pose proof (weigh_type d P) as B2. pose proof (weigh_top d P) as B3. pose proof (weigh_in d R P) as B4.
    unfold bt. rewrite to_yaml_eq. unfold to_yaml_body, short_or_full. set (o := type_marshal to_yaml d []) in *. destruct (is_short o).
    - destruct (sget gkey_eqb (KStr KeyType) o) as [r|] eqn:E; [|cbn; lia]. unfold sget in E. destruct (find _ o) as [[k r']|] eqn:Ef; [|discriminate E]. injection E as <-. apply find_some in Ef. destruct Ef as [I E]. cbn [fst] in E.
      pose proof (total_zero w_odd o B1 _ I) as Q1. pose proof (total_zero w_top o B3 _ I) as Q3. destruct k as [|x1|s|x2|x3|x4]; cbn in Q1; try discriminate Q1. unfold w_top in Q3. cbn [fst snd] in Q3. cbn in E. rewrite E in Q3. lia.
    - destruct (out_to_yaml o) as [n| |] eqn:E; cbn [br]; try lia. apply out_to_yaml_ok in E as [l [-> W]]. rewrite bad_type. unfold top.
      assert (Z : count gives_type l <= total w_type o /\ count odd_paren l = 0 /\ within l = total w_in o).
      { clear B2 B3 B4. revert B1. induction W as [|[k r] [kn v] o' l' [K V] W IH]; intros B1; [repeat split; reflexivity|]. rewrite total_cons in B1. destruct IH as [I1 [I2 I3]]; [lia|]. unfold count, within in *. rewrite !total_cons.
        destruct k as [|x1|s|x2|x3|x4]; cbn [w_odd fst] in B1; try lia. cbn [fst snd key_node] in K, V. injection K as <-. subst r. cbn [fst snd w_in]. unfold gives_type at 1, odd_paren at 1, is_type_key, w_type at 1. cbn [fst value str_node is_string node_tag negb andb]. repeat split; lia. }
      lia.
  Qed.

  (** ** What is read *)

  Definition all_regular (s : spec dtype) : Prop :=
    match s with
    | SArray _ _ _ (Some t) => regular t
    | SObject ps _ _ _ _ _ => forall k t, In (k, t) (ents ps) -> regular t
    | _ => True
    end.
  Definition parts_regular (d : dtype) : Prop := match d with TBase _ => True | TExt _ _ _ c s => all_regular s /\ exs_of c ex_even_keys end.
  Definition upto (acc : nat) (d : dtype) : Prop := wd d <= acc /\ (parts_regular d \/ wd d < acc).
  Definition good (v : node) (d : dtype) : Prop := bt d <= bad true v /\ (regular d \/ bt d < bad true v).
  Definition below_good (n : node) : Prop := forall v d, nodes v < nodes n -> hat v = Ok d -> good v d.

  Lemma upto_more acc k d : upto acc d -> upto (acc + k) d.
  Proof. intros [H1 H2]. split; [lia|]. destruct H2 as [H2|H2]; [left; exact H2|right; lia]. Qed.
  Lemma wx_put b k v : wx (mkBase (b_schema b) (b_kind b) (kput (KStr k) (GNode v) (b_extra b))) <= wx b + wk k v.
  Proof. exact (total_sput gkey_eqb wg (KStr k) (GNode v) (ents (b_extra b))). Qed.
  Lemma base_assign_wx b k v b' : base_assign b k v = Ok b' -> wx b' <= wx b + wk (value k) v.
  Proof.
    unfold base_assign. destruct (_ || _)%bool.
    - destruct (to_str v) as [s| |]; cbn [bind]; intros E; try discriminate E. injection E as <-. unfold wx, base_set_schema. cbn [b_extra]. lia.
    - intros E. injection E as <-. apply wx_put.
  Qed.
  Lemma spec_upto b x f c s b' x' f' acc k : upto acc (TExt b x f c s) -> wx b' <= wx b + k -> upto (acc + k) (TExt b' x' f' c s).
  Proof. intros [H1 H2] B. unfold upto in *. cbn [wd parts_regular] in *. split; [lia|]. destruct H2 as [H2|H2]; [left; exact H2|right; lia]. Qed.
  Lemma ex_upto b x f c s c' acc k : upto acc (TExt b x f c s) -> (k = 0 -> exs_of c ex_even_keys -> exs_of c' ex_even_keys) -> upto (acc + k) (TExt b x f c' s).
  Proof.
    intros [H1 H2] B. unfold upto in *. cbn [wd parts_regular] in *. split; [lia|]. destruct H2 as [[H2 H3]|H2]; [|right; lia]. destruct k as [|k]; [|right; lia]. left. split; [exact H2|exact (B eq_refl H3)].
  Qed.
  Lemma properties_upto ps v m' acc : below_good v -> read_properties hat ps v = Ok m' ->
    (total (fun e => bt (snd e)) (ents ps) <= acc /\ ((forall k t, In (k, t) (ents ps) -> regular t) \/ total (fun e => bt (snd e)) (ents ps) < acc)) ->
    total (fun e => bt (snd e)) (ents m') <= acc + bad false v /\ ((forall k t, In (k, t) (ents m') -> regular t) \/ total (fun e => bt (snd e)) (ents m') < acc + bad false v).
  Proof.
    unfold read_properties, read_amap, map_fold. destruct v as [t s|t s|t l]; try discriminate. intros B H. rewrite bad_types.
    assert (C : forall k v d, In (k, v) l -> hat v = Ok d -> good v d) by (intros k v d I; apply B; eapply in_map_less; exact I). clear B. revert ps acc H C. induction l as [|[k v] l IH]; intros ps acc H C A; cbn [fold_res] in H.
    { injection H as <-. unfold total at 2 4. cbn [map list_sum fold_right]. rewrite Nat.add_0_r. exact A. }
    unfold read_amap_pair at 1 in H. cbn [fst snd] in H. destruct (to_str k) as [s| |]; cbn [bind] in H; try discriminate H. destruct (hat v) as [d| |] eqn:Ed; cbn [bind] in H; try discriminate H. destruct (as_property d) as [d'| |] eqn:Ea; cbn [bind] in H; try discriminate H.
    assert (d' = d) by (destruct d; [discriminate Ea|injection Ea as <-; reflexivity]). subst d'. rewrite total_cons. cbn [snd]. rewrite Nat.add_assoc. apply (IH _ (acc + bad true v) H (fun k v d I => C k v d (or_intror I))).
    destruct (C k v d (or_introl eq_refl) Ed) as [G1 G2]. destruct A as [A1 A2]. pose proof (total_sput String.eqb (fun e => bt (snd e)) s d (ents ps)) as P. cbn [snd] in P. change (ents (mput s d ps)) with (sput String.eqb s d (ents ps)). split; [lia|].
    destruct A2 as [A2|A2]; [|right; lia]. destruct G2 as [G2|G2]; [|right; lia]. left. intros k' t' I. unfold sput, sdelete in I. apply in_app_or in I as [I|[I|[]]]; [apply filter_In in I as [I _]; exact (A2 k' t' I)|]. injection I as <- <-. exact G2.
  Qed.
  Lemma properties_less ps v m' acc : below_good v -> read_properties hat ps v = Ok m' -> total (fun e => bt (snd e)) (ents ps) < acc -> total (fun e => bt (snd e)) (ents m') < acc + bad false v.
  Proof.
    unfold read_properties, read_amap, map_fold. destruct v as [t s|t s|t l]; try discriminate. intros B H. rewrite bad_types.
    assert (C : forall k v d, In (k, v) l -> hat v = Ok d -> good v d) by (intros k v d I; apply B; eapply in_map_less; exact I). clear B. revert ps acc H C. induction l as [|[k v] l IH]; intros ps acc H C A; cbn [fold_res] in H.
    { injection H as <-. unfold total at 2. cbn [map list_sum fold_right]. rewrite Nat.add_0_r. exact A. }
    unfold read_amap_pair at 1 in H. cbn [fst snd] in H. destruct (to_str k) as [s| |]; cbn [bind] in H; try discriminate H. destruct (hat v) as [d| |] eqn:Ed; cbn [bind] in H; try discriminate H. destruct (as_property d) as [d'| |] eqn:Ea; cbn [bind] in H; try discriminate H.
    assert (d' = d) by (destruct d; [discriminate Ea|injection Ea as <-; reflexivity]). subst d'. rewrite total_cons. cbn [snd]. rewrite Nat.add_assoc. apply (IH _ (acc + bad true v) H (fun k v d I => C k v d (or_intror I))).
    destruct (C k v d (or_introl eq_refl) Ed) as [G1 _]. pose proof (total_sput String.eqb (fun e => bt (snd e)) s d (ents ps)) as P. cbn [snd] in P. change (ents (mput s d ps)) with (sput String.eqb s d (ents ps)). lia.
  Qed.
  Lemma spec_assign_upto b x f c s k v r s' acc : below_good v -> (forall d, hat v = Ok d -> good v d) -> spec_assign hat s k v = Some r -> r = Ok s' -> upto acc (TExt b x f c s) -> upto (acc + wk k v) (TExt b x f c s').
  Proof.
    intros B A. unfold upto. destruct s as [|u mn mx it|fm|ft mn mx|fm mn mx mu|fm mn mx mu|ps mn mx ad di dv|p mn mx]; cbn [spec_assign]; try discriminate.
    - destruct (String.eqb k KeyUniqueItems); [intros E; injection E as <-; intros E; destruct (run_assign _) as [w| |]; cbn [bind] in E; try discriminate E; injection E as <-; intros U; apply (upto_more _ (wk k v)) in U; exact U|].
      destruct (String.eqb k KeyMinItems); [intros E; injection E as <-; intros E; destruct (run_assign _) as [w| |]; cbn [bind] in E; try discriminate E; injection E as <-; intros U; apply (upto_more _ (wk k v)) in U; exact U|].
      destruct (String.eqb k KeyMaxItems); [intros E; injection E as <-; intros E; destruct (run_assign _) as [w| |]; cbn [bind] in E; try discriminate E; injection E as <-; intros U; apply (upto_more _ (wk k v)) in U; exact U|].
      destruct (String.eqb_spec k KeyItems) as [->|_]; [|discriminate]. intros E. injection E as <-. intros E. destruct (hat v) as [d| |]; cbn [bind] in E; try discriminate E. injection E as <-. destruct (A d eq_refl) as [G1 G2]. cbn [wd parts_regular ws all_regular]. change (wk KeyItems v) with (bad true v).
      intros [U1 U2]. split; [lia|]. destruct U2 as [[_ U2]|U2]; [|right; lia]. destruct G2 as [G2|G2]; [left; split; [exact G2|exact U2]|right; lia].
    - destruct (String.eqb k KeyFormat); [|discriminate]. intros E; injection E as <-; intros E; destruct (date_format_hat v) as [w| |]; cbn [bind] in E; try discriminate E; injection E as <-; intros U; apply (upto_more _ (wk k v)) in U; exact U.
    - repeat match goal with |- context [if String.eqb ?y ?z then _ else _] => destruct (String.eqb y z) end; intros E; try discriminate E; injection E as <-; intros E; destruct (run_assign _) as [w| |]; cbn [bind] in E; try discriminate E; injection E as <-; intros U; apply (upto_more _ (wk k v)) in U; exact U.
    - repeat match goal with |- context [if String.eqb ?y ?z then _ else _] => destruct (String.eqb y z) end; intros E; try discriminate E; injection E as <-; intros E.
      all: match type of E with bind ?r _ = _ => destruct r as [w| |]; cbn [bind] in E; try discriminate E end; injection E as <-; intros U; apply (upto_more _ (wk k v)) in U; exact U.
    - repeat match goal with |- context [if String.eqb ?y ?z then _ else _] => destruct (String.eqb y z) end; intros E; try discriminate E; injection E as <-; intros E.
      all: match type of E with bind ?r _ = _ => destruct r as [w| |]; cbn [bind] in E; try discriminate E end; injection E as <-; intros U; apply (upto_more _ (wk k v)) in U; exact U.
    - destruct (String.eqb_spec k KeyProperties) as [->|_].
      + intros E. injection E as <-. intros E. destruct (read_properties hat ps v) as [m| |] eqn:Em; cbn [bind] in E; try discriminate E. injection E as <-. cbn [wd parts_regular ws all_regular]. change (wk KeyProperties v) with (bad false v). intros [U1 U2].
        destruct U2 as [[U2 U3]|U2].
        2:{ assert (Q : total (fun e => bt (snd e)) (ents m) < (acc - wx b) + bad false v) by (eapply properties_less; [exact B|exact Em|lia]). split; [lia|right; lia]. }
        destruct (properties_upto ps v m (acc - wx b) B Em) as [Q1 Q2]; [split; [lia|left; exact U2]|]. split; [lia|]. destruct Q2 as [Q2|Q2]; [left; split; [exact Q2|exact U3]|right; lia].
      + repeat match goal with |- context [if String.eqb ?y ?z then _ else _] => destruct (String.eqb y z) end; intros E; try discriminate E; injection E as <-; intros E.
        all: try (match type of E with bind ?r _ = _ => destruct r as [w| |]; cbn [bind] in E; try discriminate E end); injection E as <-; intros U; apply (upto_more _ (wk k v)) in U; exact U.
    - repeat match goal with |- context [if String.eqb ?y ?z then _ else _] => destruct (String.eqb y z) end; intros E; try discriminate E; injection E as <-; intros E; destruct (run_assign _) as [w| |]; cbn [bind] in E; try discriminate E; injection E as <-; intros U; apply (upto_more _ (wk k v)) in U; exact U.
  Qed.
  Lemma type_assign_upto d e d' acc : below_good (snd e) -> (forall x, hat (snd e) = Ok x -> good (snd e) x) -> type_assign hat d e = Ok d' -> upto acc d -> upto (acc + wk (value (fst e)) (snd e)) d'.
  Proof.
    destruct e as [k v]. cbn [fst snd]. intros B A. unfold type_assign. cbn [fst snd]. destruct d as [b|b x f c s]; intros H U.
    - destruct (base_assign b k v) as [b0| |] eqn:Eb; cbn [bind] in H; try discriminate H. injection H as <-. apply base_assign_wx in Eb. unfold upto in *. cbn [wd parts_regular] in *. split; [lia|left; exact I].
    - destruct (String.eqb_spec (value k) KeyExample) as [->|_].
      { destruct (has_example (b_kind b)); [|discriminate H]. destruct (read_ex (b_kind b) v) as [w| |] eqn:Er; cbn [bind] in H; try discriminate H. injection H as <-. eapply ex_upto; [exact U|]. intros Z [E1 E2]. split; [|exact E2]. cbn [c_example]. intros e E. injection E as <-. exact (read_ex_even _ v w Er Z). }
      destruct (String.eqb_spec (value k) KeyExamples) as [->|_].
      { destruct (read_examples (b_kind b) (c_examples c) v) as [w| |] eqn:Er; cbn [bind] in H; try discriminate H. injection H as <-. eapply ex_upto; [exact U|]. intros Z [E1 E2]. split; [exact E1|]. exact (read_exs_even _ _ v w Er Z E2). }
      destruct (String.eqb (value k) KeyEnum).
      { destruct (read_enum (b_kind b) (c_enum c) v) as [w| |]; cbn [bind] in H; try discriminate H. injection H as <-. eapply ex_upto; [exact U|]. intros _ E. exact E. }
      destruct (String.eqb (value k) KeyRequired).
      { destruct (run_assign _) as [w| |]; cbn [bind] in H; try discriminate H. injection H as <-. eapply spec_upto; [exact U|lia]. }
      destruct (spec_assign hat s (value k) v) as [r|] eqn:E.
      { destruct r as [s'| |]; cbn [bind] in H; try discriminate H. injection H as <-. exact (spec_assign_upto b x f c s (value k) v (Ok s') s' acc B A E eq_refl U). }
      destruct (ext_assign hat b x f k v) as [[[b' x'] f']| |] eqn:Ee; cbn [bind] in H; try discriminate H. injection H as <-. eapply spec_upto; [exact U|]. revert Ee. unfold ext_assign.
      destruct (String.eqb (value k) KeyDisplayName); [destruct (run_assign _) as [w| |]; cbn [bind]; intros E1; try discriminate E1; injection E1 as <- <- <-; lia|].
      destruct (String.eqb (value k) KeyDescription); [destruct (run_assign _) as [w| |]; cbn [bind]; intros E1; try discriminate E1; injection E1 as <- <- <-; lia|].
      destruct (String.eqb (value k) KeyFacets); [destruct (read_facets hat f v) as [m| |]; cbn [bind]; intros E1; try discriminate E1; injection E1 as <- <- <-; lia|].
      destruct (String.eqb (value k) KeyXML); [destruct (xml_unmarshal v new_xml) as [w| |]; cbn [bind]; intros E1; try discriminate E1; injection E1 as <- <- <-; lia|].
      destruct (if is_string k then _ else _) as [[a|]| |]; cbn [bind]; intros E1; try discriminate E1; [injection E1 as <- <- <-; lia|].
      destruct (base_assign b k v) as [b0| |] eqn:Eb; cbn [bind] in E1; try discriminate E1. injection E1 as <- <- <-. apply base_assign_wx in Eb. exact Eb.
  Qed.
  Lemma fold_upto l : forall acc d d', (forall e, In e l -> below_good (snd e) /\ forall x, hat (snd e) = Ok x -> good (snd e) x) -> fold_res (type_assign hat) d l = Ok d' -> upto acc d -> upto (acc + within l) d'.
  Proof.
    induction l as [|e l IH]; intros acc d d' B H U; cbn [fold_res] in H; [injection H as <-; apply upto_more; exact U|]. destruct (type_assign hat d e) as [d1| |] eqn:E; cbn [bind] in H; try discriminate H.
    destruct (B e (or_introl eq_refl)) as [B1 B2]. unfold within. rewrite total_cons, Nat.add_assoc. apply (IH _ d1 d' (fun e I => B e (or_intror I)) H). exact (type_assign_upto d e d1 acc B1 B2 E U).
  Qed.

  Lemma fold_float kd f l : forall old v, (forall x, old = VOptFloat (Some x) -> from_text x) -> fold_res (stepper hat kd f) old l = Ok v -> forall x, v = VOptFloat (Some x) -> from_text x.
  Proof.
    induction l as [|e l IH]; intros old v O H x E; cbn [fold_res] in H; [injection H as <-; exact (O x E)|].
    destruct (stepper hat kd f old e) as [w| |] eqn:Ew; cbn [bind] in H; try discriminate H. apply (IH w v); [|exact H|exact E]. clear -Ew O. intros x ->. unfold stepper in Ew.
    destruct f; destruct old; cbn [step] in Ew; try discriminate Ew;
      try (destruct kd; cbn in Ew; discriminate Ew);
      try (match type of Ew with bind ?r _ = _ => destruct r eqn:E; cbn [bind] in Ew; try discriminate Ew end);
      try (injection Ew as ->; eapply to_float_text; exact E);
      try (destruct (has_example kd); [match type of Ew with bind ?r _ = _ => destruct r end; cbn [bind] in Ew; discriminate Ew|discriminate Ew]).
    all: try (destruct kd; cbn in Ew; try discriminate Ew; match type of Ew with bind ?r _ = _ => destruct r eqn:E; cbn [bind] in Ew; try discriminate Ew end; injection Ew as ->; eapply to_float_text; exact E).
  Qed.
  Lemma hat_floats n d : hat n = Ok d -> forall f x, getf f d = Some (VOptFloat (Some x)) -> from_text x.
  Proof.
    intros H f x G. assert (N : forall s k, getf f (set_schema s (new_type k)) = Some (VOptFloat (Some x)) -> from_text x) by (intros s k Q; destruct k; destruct f; discriminate Q).
    destruct (is_map n) eqn:Em. 2:{ rewrite (scalar_read n d Em H) in G. eapply N. exact G. }
    destruct n as [| |t l]; try discriminate Em. destruct (is_string (Map t l)) eqn:Es.
    { rewrite hat_eq in H. unfold hat_body in H. rewrite Es in H. injection H as <-. rewrite type_to_kind_eq in G. eapply N. exact G. }
    assert (Ht : t <> TStr) by (intros ->; discriminate). destruct (hat_start t l d Ht H) as [sc [_ [Hf [Hs Hd]]]]. set (d0 := set_schema sc (new_type (d_kind d))) in *.
    destruct (getf f d0) as [old|] eqn:Eo.
    - destruct (fold_fields _ _ _ _ Hf f old Eo) as [v [Hv Hfold]]. rewrite G in Hv. injection Hv as <-. eapply fold_float; [|exact Hfold|reflexivity]. intros y ->. exfalso. unfold d0 in Eo. destruct (d_kind d); destruct f; discriminate Eo.
    - pose proof (fold_kind _ _ _ _ Hf) as [_ S]. rewrite (getf_shape f d0 d) in G; [discriminate| |exact Eo]. rewrite same_shape_sym. exact S.
  Qed.

  (** ** One round *)

  Lemma type_named t l d : t <> TStr -> hat (Map t l) = Ok d -> pred (count gives_type l) = 0 -> d_kind d <> TyInclude -> named (d_type d) (d_kind d).
  Proof.
    intros Ht H C N. destruct (hat_start t l d Ht H) as [sc [Hi [Hf [Hs Hd]]]]. set (d0 := set_schema sc (new_type (d_kind d))) in *.
    assert (G0 : getf FType d0 = Some (VStr sc)) by (unfold d0; destruct (d_kind d); reflexivity).
    destruct (fold_fields _ _ _ _ Hf FType _ G0) as [v [Hv Hfold]].
    assert (Gd : getf FType d = Some (VStr (d_type d))) by (destruct d; reflexivity). rewrite Gd in Hv. injection Hv as <-.
    rewrite (filter_ext (aims d0 FType) gives_type (aims_type d0)) in Hfold. rewrite count_filter in C. destruct (has_type_key l) eqn:Ek.
    - apply split_type_key in Ek as [pre [k [w [post [-> [H1 H2]]]]]]. rewrite sift_first in Hi by assumption. rewrite filter_app in C, Hfold. cbn [filter] in C, Hfold. unfold gives_type at 2 in C. unfold gives_type at 2 in Hfold. cbn [fst] in C, Hfold. rewrite H2 in C, Hfold. rewrite app_length in C. cbn [List.length] in C.
      destruct (filter gives_type pre) as [|e1 r1]; [|cbn [List.length] in C; lia]. destruct (filter gives_type post) as [|e1 r1]; [|cbn [List.length] in C; lia]. cbn [app fold_res] in Hfold. unfold stepper in Hfold. cbn [step fst snd] in Hfold.
      destruct (to_str w) as [s| |] eqn:Es; cbn [bind] in Hfold; try discriminate Hfold. injection Hfold as <-. unfold to_str in Es. destruct (is_string w) eqn:Ew; [|discriminate Es]. injection Es as <-.
      apply (f_equal (fun r => match r with Ok y => d_kind y | _ => TyAny end)) in Hi. unfold d0 in Hi. rewrite !d_kind_set, !d_kind_new in Hi. rewrite <- Hi. apply kind_of_named.
    - rewrite sift_shape in Hi by exact Ek. assert (E0 : filter gives_type l = []).
      { apply filter_none. intros e Ie. unfold gives_type. destruct (is_type_key (fst e)) eqn:E; [|reflexivity]. exfalso. clear -Ek Ie E. induction l as [|[a b] l IH]; [destruct Ie|]. cbn in Ek. destruct (is_type_key a) eqn:Ea; [discriminate Ek|]. destruct Ie as [<-|Ie]; [cbn in E; congruence|auto]. }
      rewrite E0 in Hfold. cbn [fold_res] in Hfold. injection Hfold as <-. revert Hi. clear. unfold d0. destruct (has_key KeyProperties l); [|destruct (has_key KeyItems l)]; intros E.
      all: pose proof (f_equal (fun r => match r with Ok y => d_kind y | _ => TyAny end) E) as E1; cbv beta iota in E1; rewrite d_kind_set, !d_kind_new in E1; rewrite <- E1 in E |- *; cbn in E; injection E as <-; apply named_kind_of; reflexivity.
  Qed.
  Lemma no_paren t l d : t <> TStr -> hat (Map t l) = Ok d -> count odd_paren l = 0 -> d_kind d <> TyNil -> d_kind d <> TyInclude -> forall s, In (KStr s) (extra_keys d) -> starts_paren s = false.
  Proof.
    intros Ht H C N1 N2 s I. destruct (extras_keys t l d Ht H) as [_ X]. destruct (X _ I) as [e [Ie [E K]]]. injection E as ->. unfold extra_key in K. apply andb_true_iff in K as [_ K].
    assert (K' : is_annotation_key (fst e) = false) by (destruct (d_kind d); try congruence; apply negb_true_iff in K; exact K). pose proof (total_zero _ _ C e Ie) as Z. unfold odd_paren in Z. unfold is_annotation_key in K'.
    change (match value (fst e) with String c _ => Ascii.eqb c "(" | EmptyString => false end) with (starts_paren (value (fst e))) in K'. destruct (is_string (fst e)); cbn [andb negb] in *; [exact K'|]. destruct (starts_paren (value (fst e))); [discriminate Z|reflexivity].
  Qed.
  Lemma regular_by n d : floats_return -> hat n = Ok d -> (d_kind d <> TyInclude -> named (d_type d) (d_kind d)) ->
    (d_kind d <> TyNil -> d_kind d <> TyInclude -> forall s, In (KStr s) (extra_keys d) -> starts_paren s = false) -> parts_regular d -> regular d.
  Proof.
    intros R H N P A. constructor; [exact N|exact P| | | | | |].
    - intros f x G. apply text_exact; [exact R|]. exact (hat_floats n d H f x G).
    - intros l x G I. apply text_exact; [exact R|]. pose proof (hat_read n d H _ _ G) as [_ Q]. destruct (Q _ I) as [m E]. revert E. clear. destruct (d_kind d); cbn [enum_elem]; intros E; try discriminate E; try (match type of E with bind ?r _ = _ => destruct r eqn:E1 end; cbn [bind] in E; try discriminate E). injection E as <-. eapply to_float_text. exact E1.
    - intros e G. destruct d as [b|b x f c s]; [discriminate G|]. injection G as G. destruct A as [_ [A1 A2]]. pose proof (read_plain n _ H) as [_ [_ [Q1 Q2]]]. apply ex_exact; [exact R|exact (Q1 e G)|exact (A1 e G)].
    - intros m s0 e G I. destruct d as [b|b x f c s]; [discriminate G|]. injection G as <-. destruct A as [_ [A1 A2]]. pose proof (read_plain n _ H) as [_ [_ [Q1 Q2]]]. apply ex_exact; [exact R|exact (Q2 s0 e I)|exact (A2 s0 e I)].
    - intros t G. destruct d as [b|b x f c s]; [discriminate G|]. destruct A as [A _]. destruct s as [|u mn mx [t'|]|f0|ft mn mx|f0 mn mx mu|f0 mn mx mu|ps mn mx ad di dv|p mn mx]; try discriminate G. cbn in G. injection G as <-. exact A.
    - intros m s t G I. destruct d as [b|b x f c s']; [discriminate G|]. destruct A as [A _]. destruct s' as [|u mn mx [t'|]|f0|ft mn mx|f0 mn mx mu|f0 mn mx mu|ps mn mx ad di dv|p mn mx]; try discriminate G. cbn in G. injection G as <-. exact (A s t I).
  Qed.
  Lemma new_regular s k : floats_return -> (k <> TyInclude -> named s k) -> regular (set_schema s (new_type k)).
  Proof.
    intros R N. constructor.
    - intros Hk. rewrite d_kind_set, d_kind_new in *. replace (d_type (set_schema s (new_type k))) with s by (destruct k; reflexivity). exact (N Hk).
    - intros _ _ s' I. destruct k; destruct I.
    - intros f x G. destruct k; destruct f; discriminate G.
    - intros l x G. destruct k; discriminate G.
    - intros e G. destruct k; discriminate G.
    - intros m s' e G. destruct k; try discriminate G; injection G as <-; intros [].
    - intros t G. destruct k; discriminate G.
    - intros m s' e G. destruct k; try discriminate G; injection G as <-; intros [].
  Qed.
  Lemma new_bt s k : floats_return -> bt (set_schema s (new_type k)) = 0.
  Proof.
    intros R. assert (P : plain_parts (set_schema s (new_type k))).
    { split; [destruct k; intros k0 g []|]. destruct k; cbn; try exact I; (split; [intros s0 a []|split; [discriminate|intros s0 e []]]). }
    pose proof (bt_le _ R P) as B. assert (Z : wd (set_schema s (new_type k)) = 0) by (destruct k; reflexivity). lia.
  Qed.
  Lemma good_all : floats_return -> forall n d, hat n = Ok d -> good n d.
  Proof.
    intros R n. induction n as [n IH] using (well_founded_induction (Wf_nat.well_founded_ltof node nodes)). unfold Wf_nat.ltof in IH. intros d H.
    assert (New : forall s k, d = set_schema s (new_type k) -> (k <> TyInclude -> named s k) -> good n d).
    { intros s k -> N. unfold good. rewrite new_bt by exact R. split; [lia|]. left. apply new_regular; assumption. }
    destruct (is_string n) eqn:Es.
    { rewrite hat_eq in H. unfold hat_body in H. rewrite Es in H. injection H as <-. eapply New; [apply type_to_kind_eq|intros _; apply kind_of_named]. }
    destruct n as [t s|t l|t l].
    - rewrite hat_eq in H. unfold hat_body in H. rewrite Es in H. destruct t; try discriminate H. injection H as <-. apply (New s TyInclude); [reflexivity|congruence].
    - rewrite hat_eq in H. unfold hat_body in H. rewrite Es in H. discriminate H.
    - assert (Ht : t <> TStr) by (intros ->; discriminate). destruct (hat_start t l d Ht H) as [sc [_ [Hf _]]].
      assert (U : upto (0 + within l) d).
      { eapply fold_upto; [|exact Hf|].
        - intros [k v] I. pose proof (in_map_less t l k v I) as L. cbn [snd]. split; [intros v' d' L' H'; apply IH; [lia|exact H']|intros x H'; apply IH; [exact L|exact H']].
        - unfold upto. assert (Z : wd (set_schema sc (new_type (d_kind d))) = 0 /\ parts_regular (set_schema sc (new_type (d_kind d)))) by (split; [destruct (d_kind d); reflexivity|destruct (d_kind d); cbn; try exact I; (split; [try exact I; intros k t0 []|split; [discriminate|intros s0 e []]])]). destruct Z as [Z1 Z2]. rewrite Z1. split; [lia|left; exact Z2]. }
      cbn [Nat.add] in U. destruct U as [U1 U2]. pose proof (bt_le d R (read_plain _ _ H)) as B. unfold good. rewrite bad_type. split; [lia|].
      destruct (Nat.eq_dec (top l) 0) as [T|T]; [|right; lia]. destruct U2 as [U2|U2]; [|right; lia]. left. unfold top in T. eapply regular_by; [exact R|exact H| | |exact U2].
      + intros Hk. eapply type_named; [exact Ht|exact H|lia|exact Hk].
      + intros K1 K2. eapply no_paren; [exact Ht|exact H|lia|exact K1|exact K2].
  Qed.
End Settle.
