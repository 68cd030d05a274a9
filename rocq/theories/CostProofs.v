(** Proofs of C97: at most the square of the document. *)
From Coq Require Import SpecFloat.
From Verif Require Import Base Num OMap OMapSpec Keys Yaml Values Assign Formats Meta Out Xml Example DataType Doc Api Library Sizes SizeProofs Cost.
Local Open Scope nat_scope.

(** what a part of [w] nodes may cost that is put into maps of at most [r] entries *)
Definition fee (w r : nat) : nat := w * (w + r + 3).
Lemma fee_add w v r : fee w r + fee v (r + w) <= fee (w + v) r.
Proof. unfold fee. nia. Qed.
Lemma fee_step v r w : v < w -> 1 + fee v r + r <= fee w r.
Proof. unfold fee. intros H. assert (exists d, w = v + 1 + d) as [d ->] by (exists (w - v - 1); lia). nia. Qed.
Lemma fee_more w r r' : r <= r' -> fee w r <= fee w r'.
Proof. unfold fee. nia. Qed.
Lemma fee_wide w w' r : w <= w' -> fee w r <= fee w' r.
Proof. unfold fee. nia. Qed.
Lemma fee_self w r : w <= fee w r.
Proof. unfold fee. nia. Qed.

Lemma in_total {A} (w : A -> nat) a l : In a l -> w a <= total w l.
Proof. induction l as [|b l IH]; intros H; [destruct H|]. rewrite total_cons. destruct H as [->|H]; [lia|]. specialize (IH H). lia. Qed.
Lemma total_length {A} (w : A -> nat) l : (forall a, In a l -> 1 <= w a) -> List.length l <= total w l.
Proof. induction l as [|b l IH]; intros H; [reflexivity|]. rewrite total_cons. cbn [List.length]. pose proof (H b (or_introl eq_refl)). assert (List.length l <= total w l) by (apply IH; intros; apply H; right; assumption). lia. Qed.
Lemma pair_pos e : 1 + nodes (snd e) <= pair_nodes e.
Proof. unfold pair_nodes. pose proof (nodes_pos (fst e)). lia. Qed.

Section Fold.
  Context {A S : Type}.
  Variable f : S -> A -> res S.
  Variable cost : S -> A -> nat.
  Variable w : A -> nat.
  Variable room : S -> nat -> Prop.

  Lemma fold_fee l : (forall s a r, In a l -> room s r -> 1 + cost s a <= fee (w a) r) -> (forall s s' a r, In a l -> room s r -> f s a = Ok s' -> room s' (r + w a)) ->
    forall s r, room s r -> fold_cost f cost s l <= fee (total w l) r.
  Proof.
    induction l as [|a l IH]; intros H1 H2 s r R; [cbn; lia|]. rewrite total_cons. cbn [fold_cost].
    pose proof (H1 s a r (or_introl eq_refl) R) as C. pose proof (fee_add (w a) (total w l) r) as D. destruct (f s a) as [s'| |] eqn:E; [|lia|lia].
    assert (fold_cost f cost s' l <= fee (total w l) (r + w a)); [|lia].
    apply IH; [intros; apply H1; [right|]; assumption|intros s1 s2 b q Hb; apply H2; right; exact Hb|]. eapply H2; [left; reflexivity|exact R|exact E].
  Qed.
  Lemma fold_room l : (forall s s' a r, In a l -> room s r -> f s a = Ok s' -> room s' (r + w a)) -> forall s s' r, room s r -> fold_res f s l = Ok s' -> room s' (r + total w l).
  Proof.
    induction l as [|a l IH]; intros H s s' r R E; [injection E as <-; cbn; rewrite Nat.add_0_r; exact R|]. rewrite total_cons, Nat.add_assoc. cbn in E.
    destruct (f s a) as [s1| |] eqn:E1; try discriminate E. eapply IH; [intros s2 s3 b q Hb; apply H; right; exact Hb| |exact E]. eapply H; [left; reflexivity|exact R|exact E1].
  Qed.
End Fold.

(** ** Maps *)

Definition small {K V} (m : amap K V) (r : nat) : Prop := List.length (ents m) <= r.
Lemma small_more {K V} (m : amap K V) r r' : small m r -> r <= r' -> small m r'.
Proof. unfold small. lia. Qed.
Lemma put_small {K V} keq k (v : V) (m : amap K V) r b : small m r -> small (mkMap (sput keq k v (ents m)) b) (1 + r).
Proof.
  unfold small, sput, sdelete. cbn. rewrite app_length. cbn. intros H. assert (List.length (filter (other keq k) (ents m)) <= List.length (ents m)); [|lia].
  clear. induction (ents m) as [|e l IH]; [reflexivity|]. cbn. destruct (other keq k e); cbn; lia.
Qed.
Lemma mput_small {V} k (v : V) m r w : small m r -> 1 <= w -> small (mput k v m) (r + w).
Proof. intros H L. eapply small_more; [apply put_small; exact H|lia]. Qed.
Lemma kput_small {V} k (v : V) m r w : small m r -> 1 <= w -> small (kput k v m) (r + w).
Proof. intros H L. eapply small_more; [apply put_small; exact H|lia]. Qed.
Lemma put_cost_small {K V} keq (k : K) (m : amap K V) r : small m r -> put_cost keq k m <= r.
Proof. unfold put_cost, small. destruct (shas _ _ _); lia. Qed.

Lemma amap_pair_small {V} (dec : node -> res V) m m' e r : small m r -> read_amap_pair dec m e = Ok m' -> small m' (r + pair_nodes e).
Proof.
  intros H E. unfold read_amap_pair in E. apply bind_ok in E as [k [_ E]]. apply bind_ok in E as [v [_ E]]. injection E as <-. apply mput_small; [exact H|]. pose proof (pair_pos e). lia.
Qed.
Lemma amap_small {V} (dec : node -> res V) m m' n r : small m r -> read_amap dec m n = Ok m' -> small m' (r + nodes n).
Proof.
  intros H E. destruct n as [t s|t l|t l]; try discriminate E. cbn in E. rewrite nodes_map.
  eapply small_more; [eapply (fold_room _ pair_nodes small l); [|exact H|exact E]|lia]. intros s s' a q _. apply amap_pair_small.
Qed.
Lemma amap_fee {V} (dec : node -> res V) dcost m n r : (forall v, nodes v < nodes n -> dcost v <= fee (nodes v) 0) -> small m r -> amap_cost dec dcost m n <= fee (nodes n) r.
Proof.
  intros H R. destruct n as [t s|t l|t l]; try (cbn; lia). cbn [amap_cost map_cost]. unfold amap_cost, map_cost. rewrite nodes_map in *.
  eapply Nat.le_trans; [eapply (fold_fee _ _ pair_nodes small l); [| |exact R]|apply fee_wide; lia].
  - intros s e q He Hs. unfold pair_cost. pose proof (in_total pair_nodes e l He) as L. pose proof (pair_pos e) as P. pose proof (fee_step (nodes (snd e)) q (pair_nodes e)) as G.
    specialize (H (snd e)). pose proof (fee_more (nodes (snd e)) 0 q) as M.
    destruct (to_str (fst e)) as [k0| |]; [|lia|lia]. destruct (dec (snd e)); [pose proof (put_cost_small String.eqb k0 s q Hs); lia|lia|lia].
  - intros s s' a q _. apply amap_pair_small.
Qed.
Lemma free_fee v : free_cost v <= fee (nodes v) 0.
Proof. unfold free_cost. lia. Qed.
Lemma small_nil {K V} b : small (mkMap (@nil (K * V)) b) 0.
Proof. unfold small. cbn. lia. Qed.
Lemma annotation_fee n : annotation_cost n <= fee (nodes n) 0.
Proof. apply amap_fee; [intros v _; apply free_fee|apply small_nil]. Qed.
Lemma items_fee n r : items_cost n <= fee (nodes n) r.
Proof.
  destruct n as [t s|t l|t l]; cbn [items_cost]; try lia. eapply Nat.le_trans; [|apply fee_self]. rewrite nodes_seq. pose proof (total_length nodes l (fun a _ => nodes_pos a)). lia.
Qed.
Lemma xml_fee n r : xml_cost n <= fee (nodes n) r.
Proof.
  destruct n as [t s|t l|t l]; cbn [xml_cost]; try lia. eapply Nat.le_trans; [|apply fee_self]. rewrite nodes_map.
  assert (List.length l <= total pair_nodes l); [|lia]. apply total_length. intros a _. pose proof (pair_pos a). lia.
Qed.

(** one entry: what its value costs, and a put *)
Lemma entry_fee e c p r : c <= fee (nodes (snd e)) r -> p <= r -> 1 + (c + p) <= fee (pair_nodes e) r.
Proof. intros C P. pose proof (fee_step (nodes (snd e)) r (pair_nodes e)). pose proof (pair_pos e). lia. Qed.
Lemma entry_value e c r : c <= fee (nodes (snd e)) r -> 1 + c <= fee (pair_nodes e) r.
Proof. intros C. pose proof (entry_fee e c 0 r C). lia. Qed.
Lemma entry_put e p r : p <= r -> 1 + p <= fee (pair_nodes e) r.
Proof. intros P. apply (entry_fee e 0 p r); lia. Qed.
Lemma pair_one e : 1 <= pair_nodes e.
Proof. pose proof (pair_pos e). lia. Qed.
Lemma value_pair e r : r + nodes (snd e) <= r + pair_nodes e.
Proof. pose proof (pair_pos e). lia. Qed.

Section Proofs.
  Context {F : FloatIO}.

  (** ** Examples *)
  Definition ex_room (e : ex) (r : nat) : Prop := small (ex_anns e) r /\ small (ex_extra e) r.

  Lemma ex_step_room kd e e' p r : ex_room e r -> ex_assign kd e p = Ok e' -> ex_room e' (r + pair_nodes p).
  Proof.
    intros [R1 R2] E. pose proof (pair_one p) as P.
    assert (G1 : small (ex_anns e) (r + pair_nodes p)) by (eapply small_more; [exact R1|lia]). assert (G2 : small (ex_extra e) (r + pair_nodes p)) by (eapply small_more; [exact R2|lia]).
    unfold ex_assign in E. destruct (negb (is_string (fst p))).
    { apply bind_ok in E as [s [_ E]]. injection E as <-. split; [exact G1|]. apply kput_small; assumption. }
    destruct (value (fst p)) as [|c t] eqn:K; [discriminate E|]. rewrite <- K in *. destruct (Ascii.eqb c "(").
    { apply bind_ok in E as [s [_ E]]. injection E as <-. split; [|exact G2]. apply mput_small; assumption. }
    repeat (destruct (String.eqb (value (fst p)) _); [apply bind_ok in E as [s [_ E]]; injection E as <-; split; assumption|]).
    apply bind_ok in E as [s [_ E]]. injection E as <-. split; [exact G1|]. apply kput_small; assumption.
  Qed.
  Lemma ex_step_fee kd e p r : ex_room e r -> 1 + ex_assign_cost kd e p <= fee (pair_nodes p) r.
  Proof.
    intros [R1 R2]. assert (X : 1 + match to_scalar (fst p) with Ok s => put_cost gkey_eqb s (ex_extra e) | _ => 0 end <= fee (pair_nodes p) r).
    { apply entry_put. destruct (to_scalar (fst p)); [apply put_cost_small; exact R2|lia|lia]. }
    assert (Z : 1 + 0 <= fee (pair_nodes p) r) by (apply entry_put; lia).
    unfold ex_assign_cost. destruct (negb (is_string (fst p))); [exact X|]. destruct (value (fst p)) as [|c t] eqn:K; [exact Z|]. rewrite <- K. destruct (Ascii.eqb c "(").
    { apply entry_fee; [eapply Nat.le_trans; [apply annotation_fee|apply fee_more; lia]|]. destruct (read_annotation _); [apply put_cost_small; exact R1|lia|lia]. }
    do 3 (destruct (String.eqb (value (fst p)) _); [exact Z|]). destruct (String.eqb (value (fst p)) _); [apply entry_value; apply items_fee|]. exact X.
  Qed.
  Lemma ex_fee kd n : ex_cost kd n <= fee (nodes n) 0.
  Proof.
    destruct n as [t s|t l|t l]; try apply (items_fee _ 0). cbn [ex_cost]. rewrite nodes_map.
    eapply Nat.le_trans; [apply (fold_fee (ex_assign kd) (ex_assign_cost kd) pair_nodes ex_room l)|apply fee_wide; lia].
    - intros s a r _. apply ex_step_fee.
    - intros s s' a r _. apply ex_step_room.
    - split; apply small_nil.
  Qed.

  (** ** Definitions *)
  Definition spec_room (s : spec dtype) (r : nat) : Prop := match s with SObject ps _ _ _ _ _ => small ps r | _ => True end.
  Definition type_room (d : dtype) (r : nat) : Prop :=
    match d with
    | TBase b => small (b_extra b) r
    | TExt b x f c s => small (b_extra b) r /\ small (x_anns x) r /\ small f r /\ small (c_examples c) r /\ spec_room s r
    end.
  Lemma spec_room_more s r r' : spec_room s r -> r <= r' -> spec_room s r'.
  Proof. destruct s; cbn; auto. intros H L. eapply small_more; eassumption. Qed.

  Lemma base_room b b' key val r w : small (b_extra b) r -> 1 <= w -> base_assign b key val = Ok b' -> small (b_extra b') (r + w).
  Proof.
    intros H L E. unfold base_assign in E. destruct (_ || _); [apply bind_ok in E as [s [_ E]]|]; injection E as <-; cbn.
    - eapply small_more; [exact H|lia].
    - apply kput_small; assumption.
  Qed.
  Lemma spec_step_room h s s' k val r : spec_room s r -> spec_assign h s k val = Some (Ok s') -> spec_room s' (r + nodes val).
  Proof.
    intros H E. pose proof (spec_room_more s r (r + nodes val) H) as G. specialize (G ltac:(lia)).
    destruct s; cbn [spec_assign] in E; try discriminate E;
    repeat (match type of E with context [if String.eqb k ?x then _ else _] => destruct (String.eqb k x) end; [injection E as E; try (apply bind_ok in E as [v [Ev E]]); injection E as <-; cbn; try exact I; try exact G|]); try discriminate E.
    - eapply amap_small; [exact H|exact Ev].
    - destruct (String.eqb k _); [injection E as <-; exact G|discriminate E].
  Qed.
  Lemma type_step_room h d d' e r : type_room d r -> type_assign h d e = Ok d' -> type_room d' (r + pair_nodes e).
  Proof.
    intros R E. pose proof (pair_one e) as P. pose proof (value_pair e r) as Q. unfold type_assign in E. destruct d as [b|b x f c s].
    { apply bind_ok in E as [b' [Eb E]]. injection E as <-. cbn in *. eapply base_room; eassumption. }
    destruct R as [R1 [R2 [R3 [R4 R5]]]].
    assert (G1 : small (b_extra b) (r + pair_nodes e)) by (eapply small_more; [exact R1|lia]). assert (G2 : small (x_anns x) (r + pair_nodes e)) by (eapply small_more; [exact R2|lia]).
    assert (G3 : small f (r + pair_nodes e)) by (eapply small_more; [exact R3|lia]). assert (G4 : small (c_examples c) (r + pair_nodes e)) by (eapply small_more; [exact R4|lia]).
    assert (G5 : spec_room s (r + pair_nodes e)) by (eapply spec_room_more; [exact R5|lia]).
    destruct (String.eqb (value (fst e)) KeyExample).
    { destruct (has_example (b_kind b)); [|discriminate E]. apply bind_ok in E as [v [_ E]]. injection E as <-. cbn. auto. }
    destruct (String.eqb (value (fst e)) KeyExamples).
    { apply bind_ok in E as [v [Ev E]]. injection E as <-. cbn. repeat split; auto. eapply small_more; [eapply amap_small; [exact R4|exact Ev]|exact Q]. }
    destruct (String.eqb (value (fst e)) KeyEnum); [apply bind_ok in E as [v [_ E]]; injection E as <-; cbn; auto|].
    destruct (String.eqb (value (fst e)) KeyRequired); [apply bind_ok in E as [v [_ E]]; injection E as <-; cbn; auto|].
    destruct (spec_assign h s (value (fst e)) (snd e)) as [o|] eqn:Es.
    { apply bind_ok in E as [s' [-> E]]. injection E as <-. cbn. repeat split; auto. eapply spec_room_more; [exact (spec_step_room h s s' _ _ r R5 Es)|exact Q]. }
    apply bind_ok in E as [[[b' x'] f'] [Ee E]]. injection E as <-. unfold ext_assign in Ee.
    destruct (String.eqb (value (fst e)) KeyDisplayName); [apply bind_ok in Ee as [v [_ Ee]]; injection Ee as <- <- <-; cbn; auto|].
    destruct (String.eqb (value (fst e)) KeyDescription); [apply bind_ok in Ee as [v [_ Ee]]; injection Ee as <- <- <-; cbn; auto|].
    destruct (String.eqb (value (fst e)) KeyFacets).
    { apply bind_ok in Ee as [v [Ev Ee]]. injection Ee as <- <- <-. cbn. repeat split; auto. eapply small_more; [eapply amap_small; [exact R3|exact Ev]|exact Q]. }
    destruct (String.eqb (value (fst e)) KeyXML); [apply bind_ok in Ee as [v [_ Ee]]; injection Ee as <- <- <-; cbn; auto|].
    apply bind_ok in Ee as [u [Eu Ee]]. destruct u as [a|].
    - injection Ee as <- <- <-. cbn. repeat split; auto. destruct (is_string (fst e)); [|discriminate Eu]. unfold annotations_in in Eu.
      destruct (value (fst e)) as [|ch t]; [discriminate Eu|]. destruct (Ascii.eqb ch "("); [|discriminate Eu]. apply bind_ok in Eu as [v [_ Eu]]. injection Eu as <-. apply mput_small; assumption.
    - apply bind_ok in Ee as [b1 [Eb Ee]]. injection Ee as <- <- <-. cbn. repeat split; auto. exact (base_room b b1 _ _ r _ R1 P Eb).
  Qed.

  Section Step.
    Variable h : node -> res dtype.
    Variable hcost : node -> nat.
    Variable e : node * node.
    Hypothesis Hc : forall v, nodes v <= nodes (snd e) -> hcost v <= fee (nodes v) 0.

    Lemma base_fee b r : small (b_extra b) r -> 1 + base_cost b (fst e) <= fee (pair_nodes e) r.
    Proof. intros H. apply entry_put. unfold base_cost. destruct (_ || _); [lia|]. apply put_cost_small. exact H. Qed.
    Lemma type_step_fee d r : type_room d r -> 1 + type_cost h hcost d e <= fee (pair_nodes e) r.
    Proof.
      intros R. unfold type_cost. destruct d as [b|b x f c s]; [apply base_fee; exact R|]. destruct R as [R1 [R2 [R3 [R4 R5]]]].
      assert (Z : 1 + 0 <= fee (pair_nodes e) r) by (apply entry_put; lia).
      assert (M : fee (nodes (snd e)) 0 <= fee (nodes (snd e)) r) by (apply fee_more; lia).
      destruct (String.eqb (value (fst e)) KeyExample); [destruct (has_example (b_kind b)); [apply entry_value; eapply Nat.le_trans; [apply ex_fee|exact M]|exact Z]|].
      destruct (String.eqb (value (fst e)) KeyExamples); [apply entry_value; apply amap_fee; [intros v _; apply ex_fee|exact R4]|].
      destruct (String.eqb (value (fst e)) KeyEnum); [apply entry_value; apply items_fee|]. destruct (String.eqb (value (fst e)) KeyRequired); [exact Z|].
      destruct (spec_assign h s (value (fst e)) (snd e)) as [o|].
      { unfold spec_cost. destruct s; try exact Z; destruct (String.eqb (value (fst e)) _); try exact Z.
        - apply entry_value. eapply Nat.le_trans; [apply Hc; lia|exact M].
        - apply entry_value. apply items_fee.
        - apply entry_value. apply amap_fee; [|exact R5]. intros v L. apply Hc. lia. }
      unfold ext_cost. destruct (String.eqb (value (fst e)) KeyDisplayName); [exact Z|]. destruct (String.eqb (value (fst e)) KeyDescription); [exact Z|].
      destruct (String.eqb (value (fst e)) KeyFacets).
      { apply entry_value. apply amap_fee; [|exact R3]. intros v L. apply amap_fee; [|apply small_nil]. intros u Lu. apply Hc. lia. }
      destruct (String.eqb (value (fst e)) KeyXML); [apply entry_value; apply xml_fee|].
      destruct (is_string (fst e)); [|apply base_fee; exact R1]. destruct (value (fst e)) as [|ch t] eqn:K; [exact Z|]. rewrite <- K. destruct (Ascii.eqb ch "("); [|apply base_fee; exact R1].
      apply entry_fee; [eapply Nat.le_trans; [apply annotation_fee|exact M]|]. destruct (read_annotation _); [apply put_cost_small; exact R2|lia|lia].
    Qed.
  End Step.

  Lemma new_room k : type_room (new_type k) 0.
  Proof. destruct k; cbn; repeat split; try apply small_nil; exact I. Qed.
  Lemma set_room s d r : type_room d r -> type_room (set_schema s d) r.
  Proof. destruct d; exact (fun H => H). Qed.
  Lemma sift_room l d : sift_type l = Ok d -> type_room d 0.
  Proof.
    assert (K : forall s, type_room (type_to_kind s) 0).
    { intros s. unfold type_to_kind. repeat (match goal with |- context [if ?b then _ else _] => destruct b end; [try apply set_room; apply new_room|]). apply set_room. apply new_room. }
    unfold sift_type. destruct (sift_scan l false false) as [[o pr] it]. destruct o as [tmp|].
    - destruct (is_string tmp); [intros H; injection H as <-; apply K|]. destruct (is_seq tmp); [discriminate|]. destruct (node_tag tmp); try discriminate. intros H. injection H as <-. cbn. apply small_nil.
    - destruct pr; [intros H; injection H as <-; cbn; repeat split; try apply small_nil; exact I|]. destruct it; intros H; injection H as <-; cbn; repeat split; try apply small_nil; exact I.
  Qed.

  Lemma hat_unfold n : hat_cost n = hat_cost_body hat hat_cost n.
  Proof. destruct n; reflexivity. Qed.

  Lemma hat_fee : forall k n, nodes n < k -> hat_cost n <= fee (nodes n) 0.
  Proof.
    induction k as [|k IH]; intros n L; [lia|]. rewrite hat_unfold. unfold hat_cost_body. destruct (is_string n); [lia|]. destruct n as [t s|t l|t l]; try lia. rewrite nodes_map in *.
    assert (Ll : List.length l <= total pair_nodes l) by (apply total_length; intros a _; apply pair_one).
    assert (C : match sift_type l with Ok d => fold_cost (type_assign hat) (type_cost hat hat_cost) d l | _ => 0 end <= fee (total pair_nodes l) 0).
    { destruct (sift_type l) as [d| |] eqn:E; [|lia|lia]. apply (fold_fee (type_assign hat) (type_cost hat hat_cost) pair_nodes type_room l).
      - intros s a r Ha. apply type_step_fee. intros v Lv. apply IH. pose proof (in_total pair_nodes a l Ha). pose proof (pair_pos a). lia.
      - intros s s' a r _. apply type_step_room.
      - apply (sift_room l). exact E. }
    unfold fee in *. nia.
  Qed.
  Lemma hat_bound n : hat_cost n <= fee (nodes n) 0.
  Proof. apply (hat_fee (Datatypes.S (nodes n))). lia. Qed.

  (** ** Documents *)
  Definition doc_room (d : doc) (r : nat) : Prop := small (doc_extra d) r.
  Lemma doc_step_room d d' e r : doc_room d r -> doc_assign d e = Ok d' -> doc_room d' (r + pair_nodes e).
  Proof.
    intros R E. pose proof (pair_one e) as P. assert (G : small (doc_extra d) (r + pair_nodes e)) by (eapply small_more; [exact R|lia]). unfold doc_assign in E.
    destruct (String.eqb _ _); [injection E as <-; exact G|]. destruct (String.eqb _ _); [injection E as <-; exact G|]. apply bind_ok in E as [k [_ E]]. injection E as <-. apply kput_small; assumption.
  Qed.
  Lemma doc_fee n : doc_cost n <= fee (nodes n) 0.
  Proof.
    destruct n as [t s|t l|t l]; try (cbn; lia). unfold doc_cost, map_cost. rewrite nodes_map.
    eapply Nat.le_trans; [apply (fold_fee doc_assign doc_assign_cost pair_nodes doc_room l)|apply fee_wide; lia].
    - intros s a r _ R. apply entry_put. unfold doc_assign_cost. destruct (String.eqb _ _); [lia|]. destruct (String.eqb _ _); [lia|]. destruct (to_scalar _); [apply put_cost_small; exact R|lia|lia].
    - intros s s' a r _. apply doc_step_room.
    - apply small_nil.
  Qed.
  Lemma docs_fee n old : docs_cost n old <= fee (nodes n) 0.
  Proof.
    destruct n as [t s|t l|t l]; try (cbn; lia). unfold docs_cost. rewrite nodes_seq. revert old. cut (forall old, fold_cost read_doc (fun _ => doc_cost) old l <= total nodes l + fee (total nodes l) 0).
    { intros H old. specialize (H old). unfold fee in *. nia. }
    induction l as [|a l IH]; intros old; [cbn; lia|]. rewrite total_cons. cbn [fold_cost]. pose proof (doc_fee a) as D. pose proof (fee_add (nodes a) (total nodes l) 0) as A. pose proof (nodes_pos a) as P.
    pose proof (fee_more (total nodes l) 0 (0 + nodes a)) as M. destruct (read_doc old a) as [o| |]; [specialize (IH o); lia|lia|lia].
  Qed.

  Definition api_room (a : api) (r : nat) : Prop :=
    small (a_baseURIParameters a) r /\ small (a_types a) r /\ small (a_traits a) r /\ small (a_resourceTypes a) r /\ small (a_annotationTypes a) r /\ small (a_annotations a) r /\
    small (a_securitySchemes a) r /\ small (a_uses a) r /\ small (a_resources a) r /\ small (a_extra a) r.
  Lemma api_step_room a a' e r : api_room a r -> api_assign a e = Ok a' -> api_room a' (r + pair_nodes e).
  Proof.
    intros R E. pose proof (pair_one e) as P. pose proof (value_pair e r) as Q.
    assert (G : api_room a (r + pair_nodes e)) by (unfold api_room in *; repeat split; (eapply small_more; [apply R|lia])).
    destruct R as [R1 [R2 [R3 [R4 [R5 [R6 [R7 [R8 [R9 R10]]]]]]]]]. destruct G as [G1 [G2 [G3 [G4 [G5 [G6 [G7 [G8 [G9 G10]]]]]]]]].
    unfold api_assign in E. destruct (negb (is_string (fst e))).
    { apply bind_ok in E as [s [_ E]]. injection E as <-. unfold api_room. cbn. repeat split; auto. apply kput_small; assumption. }
    destruct (value (fst e)) as [|c t] eqn:K; [discriminate E|]. rewrite <- K in *. destruct (Ascii.eqb c "(").
    { apply bind_ok in E as [s [_ E]]. injection E as <-. unfold api_room. cbn. repeat split; auto. apply mput_small; assumption. }
    destruct (Ascii.eqb c "/"); [injection E as <-; unfold api_room; cbn; repeat split; auto; apply mput_small; assumption|].
    do 8 (destruct (String.eqb (value (fst e)) _); [apply bind_ok in E as [s [_ E]]; injection E as <-; unfold api_room; cbn; repeat split; auto|]).
    do 6 (destruct (String.eqb (value (fst e)) _); [apply bind_ok in E as [s [Es E]]; injection E as <-; unfold api_room; cbn; repeat split; auto; (eapply (small_more _ (r + nodes (snd e))); [eapply amap_small; [|exact Es]; eassumption|exact Q])|]).
    destruct (_ || _); [apply bind_ok in E as [s [Es E]]; injection E as <-; unfold api_room; cbn; repeat split; auto; (eapply (small_more _ (r + nodes (snd e))); [eapply amap_small; [|exact Es]; eassumption|exact Q])|].
    apply bind_ok in E as [s [_ E]]. injection E as <-. unfold api_room. cbn. repeat split; auto. apply kput_small; assumption.
  Qed.
  Lemma api_step_fee a e r : api_room a r -> 1 + api_cost a e <= fee (pair_nodes e) r.
  Proof.
    intros [R1 [R2 [R3 [R4 [R5 [R6 [R7 [R8 [R9 R10]]]]]]]]].
    assert (Z : 1 + 0 <= fee (pair_nodes e) r) by (apply entry_put; lia). assert (M : fee (nodes (snd e)) 0 <= fee (nodes (snd e)) r) by (apply fee_more; lia).
    assert (X : 1 + match to_scalar (fst e) with Ok s => put_cost gkey_eqb s (a_extra a) | _ => 0 end <= fee (pair_nodes e) r).
    { apply entry_put. destruct (to_scalar (fst e)); [apply put_cost_small; exact R10|lia|lia]. }
    unfold api_cost. destruct (negb (is_string (fst e))); [exact X|]. destruct (value (fst e)) as [|c t] eqn:K; [exact Z|]. rewrite <- K. destruct (Ascii.eqb c "(").
    { apply entry_fee; [eapply Nat.le_trans; [apply annotation_fee|exact M]|]. destruct (read_annotation _); [apply put_cost_small; exact R6|lia|lia]. }
    destruct (Ascii.eqb c "/"); [apply entry_put; apply put_cost_small; exact R9|].
    do 4 (destruct (String.eqb (value (fst e)) _); [exact Z|]). do 2 (destruct (String.eqb (value (fst e)) _); [apply entry_value; apply items_fee|]).
    destruct (String.eqb (value (fst e)) _); [apply entry_value; eapply Nat.le_trans; [apply docs_fee|exact M]|].
    destruct (String.eqb (value (fst e)) _); [apply entry_value; apply items_fee|].
    do 6 (destruct (String.eqb (value (fst e)) _); [apply entry_value; apply amap_fee; [intros v _; apply free_fee|assumption]|]).
    destruct (_ || _); [apply entry_value; apply amap_fee; [intros v _; apply hat_bound|assumption]|]. exact X.
  Qed.
  Lemma api_fee n a r : api_room a r -> api_load_cost n a <= fee (nodes n) r.
  Proof.
    intros R. destruct n as [t s|t l|t l]; try (cbn; lia). unfold api_load_cost, map_cost. rewrite nodes_map.
    eapply Nat.le_trans; [apply (fold_fee api_assign api_cost pair_nodes api_room l)|apply fee_wide; lia].
    - intros s e q _. apply api_step_fee.
    - intros s s' e q _. apply api_step_room.
    - exact R.
  Qed.

  Definition lib_room (a : library) (r : nat) : Prop :=
    small (l_types a) r /\ small (l_traits a) r /\ small (l_resourceTypes a) r /\ small (l_annotations a) r /\
    small (l_securitySchemes a) r /\ small (l_uses a) r /\ small (l_extra a) r.
  Lemma lib_step_room a a' e r : lib_room a r -> lib_assign a e = Ok a' -> lib_room a' (r + pair_nodes e).
  Proof.
    intros R E. pose proof (pair_one e) as P. pose proof (value_pair e r) as Q.
    assert (G : lib_room a (r + pair_nodes e)) by (unfold lib_room in *; repeat split; (eapply small_more; [apply R|lia])).
    destruct R as [R1 [R2 [R3 [R4 [R5 [R6 R7]]]]]]. destruct G as [G1 [G2 [G3 [G4 [G5 [G6 G7]]]]]].
    unfold lib_assign in E.
    destruct (String.eqb (value (fst e)) KeyAnnotationTypes); [apply bind_ok in E as [s [Es E]]; injection E as <-; unfold lib_room; cbn; repeat split; auto; (eapply (small_more _ (r + nodes (snd e))); [eapply amap_small; [|exact Es]; eassumption|exact Q])|].
    destruct (String.eqb (value (fst e)) KeyResourceTypes); [apply bind_ok in E as [s [Es E]]; injection E as <-; unfold lib_room; cbn; repeat split; auto; (eapply (small_more _ (r + nodes (snd e))); [eapply amap_small; [|exact Es]; eassumption|exact Q])|].
    destruct (_ || _); [apply bind_ok in E as [s [Es E]]; injection E as <-; unfold lib_room; cbn; repeat split; auto; (eapply (small_more _ (r + nodes (snd e))); [eapply amap_small; [|exact Es]; eassumption|exact Q])|].
    do 2 (destruct (String.eqb (value (fst e)) _); [apply bind_ok in E as [s [Es E]]; injection E as <-; unfold lib_room; cbn; repeat split; auto; (eapply (small_more _ (r + nodes (snd e))); [eapply amap_small; [|exact Es]; eassumption|exact Q])|]).
    destruct (String.eqb (value (fst e)) _); [apply bind_ok in E as [s [Es E]]; injection E as <-; unfold lib_room; cbn; repeat split; auto|].
    destruct (String.eqb (value (fst e)) _); [apply bind_ok in E as [s [Es E]]; injection E as <-; unfold lib_room; cbn; repeat split; auto; (eapply (small_more _ (r + nodes (snd e))); [eapply amap_small; [|exact Es]; eassumption|exact Q])|].
    assert (X : forall a', (do s <- to_scalar (fst e); Ok (l_set_extra (kput s (GNode (snd e)) (l_extra a)) a)) = Ok a' -> lib_room a' (r + pair_nodes e)).
    { intros a1 E1. apply bind_ok in E1 as [s [_ E1]]. injection E1 as <-. unfold lib_room. cbn. repeat split; auto. apply kput_small; assumption. }
    destruct (is_string (fst e)); [|apply X; exact E]. destruct (value (fst e)) as [|c t]; [discriminate E|]. destruct (Ascii.eqb c "("); [|apply X; exact E].
    apply bind_ok in E as [s [_ E]]. injection E as <-. unfold lib_room. cbn. repeat split; auto. apply mput_small; assumption.
  Qed.
  Lemma lib_step_fee a e r : lib_room a r -> 1 + lib_cost a e <= fee (pair_nodes e) r.
  Proof.
    intros [R1 [R2 [R3 [R4 [R5 [R6 R7]]]]]].
    assert (Z : 1 + 0 <= fee (pair_nodes e) r) by (apply entry_put; lia). assert (M : fee (nodes (snd e)) 0 <= fee (nodes (snd e)) r) by (apply fee_more; lia).
    assert (X : 1 + match to_scalar (fst e) with Ok s => put_cost gkey_eqb s (l_extra a) | _ => 0 end <= fee (pair_nodes e) r).
    { apply entry_put. destruct (to_scalar (fst e)); [apply put_cost_small; exact R7|lia|lia]. }
    unfold lib_cost.
    destruct (String.eqb (value (fst e)) _); [apply entry_value; apply amap_fee; [intros v _; apply annotation_fee|assumption]|].
    destruct (String.eqb (value (fst e)) KeyResourceTypes); [apply entry_value; apply amap_fee; [intros v _; apply free_fee|assumption]|].
    destruct (_ || _); [apply entry_value; apply amap_fee; [intros v _; apply hat_bound|assumption]|].
    do 2 (destruct (String.eqb (value (fst e)) _); [apply entry_value; apply amap_fee; [intros v _; apply free_fee|assumption]|]).
    destruct (String.eqb (value (fst e)) _); [exact Z|]. destruct (String.eqb (value (fst e)) _); [apply entry_value; apply amap_fee; [intros v _; apply free_fee|assumption]|].
    destruct (is_string (fst e)); [|exact X]. destruct (value (fst e)) as [|c t] eqn:K; [exact Z|]. rewrite <- K. destruct (Ascii.eqb c "("); [|exact X].
    apply entry_fee; [eapply Nat.le_trans; [apply annotation_fee|exact M]|]. destruct (read_annotation _); [apply put_cost_small; exact R4|lia|lia].
  Qed.
  Lemma lib_fee n a r : lib_room a r -> lib_load_cost n a <= fee (nodes n) r.
  Proof.
    intros R. destruct n as [t s|t l|t l]; try (cbn; lia). unfold lib_load_cost, map_cost. rewrite nodes_map.
    eapply Nat.le_trans; [apply (fold_fee lib_assign lib_cost pair_nodes lib_room l)|apply fee_wide; lia].
    - intros s e q _. apply lib_step_fee.
    - intros s s' e q _. apply lib_step_room.
    - exact R.
  Qed.
End Proofs.
