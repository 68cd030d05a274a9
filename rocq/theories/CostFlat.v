(** Proofs of C97: documents that repeat no key cost no more than twice their size. *)
From Coq Require Import SpecFloat.
From Verif Require Import Base Num OMap OMapSpec Keys Yaml Values Assign Formats Meta Out Xml Example DataType Doc Api Library Sizes SizeProofs Cost CostProofs.
Local Open Scope nat_scope.

Definition text (e : node * node) : string := value (fst e).
(** no mapping in the document has a key that is not a string, or one key twice *)
Inductive tidy : node -> Prop :=
| tidy_scalar t v : tidy (Scal t v)
| tidy_seq t l : (forall n, In n l -> tidy n) -> tidy (Seq t l)
| tidy_map t l : (forall e, In e l -> is_string (fst e) = true /\ tidy (snd e)) -> NoDup (map text l) -> tidy (Map t l).

Section Fold.
  Context {S : Type}.
  Variable f : S -> node * node -> res S.
  Variable cost : S -> node * node -> nat.
  Variable label : node * node -> string.
  (** nothing in the object comes from an entry with another label *)
  Variable seen : S -> list string -> Prop.

  Lemma fold_flat l : (forall s e ks, In e l -> seen s ks -> ~ In (label e) ks -> cost s e <= 2 * nodes (snd e)) ->
    (forall s s' e ks, In e l -> seen s ks -> f s e = Ok s' -> seen s' (label e :: ks)) ->
    NoDup (map label l) -> forall s ks, seen s ks -> (forall x, In x ks -> ~ In x (map label l)) -> fold_cost f cost s l + List.length l <= 2 * total pair_nodes l.
  Proof.
    induction l as [|e l IH]; intros H1 H2 N s ks R D; [cbn; lia|]. rewrite total_cons. cbn [fold_cost List.length]. cbn [map] in N, D. inversion N as [|x y N1 N2]; subst.
    pose proof (pair_pos e) as P. assert (C : cost s e <= 2 * nodes (snd e)).
    { apply (H1 s e ks); [left; reflexivity|exact R|]. intros I. apply (D _ I). left. reflexivity. }
    assert (L : List.length l <= total pair_nodes l) by (apply total_length; intros a _; apply pair_one).
    destruct (f s e) as [s'| |] eqn:E; [|lia|lia].
    assert (fold_cost f cost s' l + List.length l <= 2 * total pair_nodes l); [|lia].
    apply (IH (fun s0 e0 ks0 I => H1 s0 e0 ks0 (or_intror I)) (fun s0 s1 e0 ks0 I => H2 s0 s1 e0 ks0 (or_intror I)) N2 s' (label e :: ks)).
    - apply (H2 s s' e ks); [left; reflexivity|exact R|exact E].
    - intros x [<-|I]; [exact N1|]. intros J. apply (D x I). right. exact J.
  Qed.
End Fold.

(** ** Maps *)

Definition from {V} (m : amap string V) (ks : list string) : Prop := forall k, In k (map fst (ents m)) -> In k ks.
Definition kfrom {V} (m : amap gkey V) (ks : list string) : Prop := forall k, In k (map fst (ents m)) -> exists s, k = KStr s /\ In s ks.
(** the map is filled by an entry of its own only *)
Definition own {K V} (key : string) (m : amap K V) (ks : list string) : Prop := In key ks \/ ents m = [].

Lemma sput_keys {K V} keq k (v : V) (l : list (K * V)) x : In x (map fst (sput keq k v l)) -> x = k \/ In x (map fst l).
Proof.
  unfold sput, sdelete. rewrite map_app. intros I. apply in_app_or in I as [I|[<-|[]]]; [right|left; reflexivity]. apply in_map_iff in I as [e [<- I]]. apply filter_In in I as [I _]. apply in_map. exact I.
Qed.
Lemma from_put {V} k (v : V) m ks : from m ks -> from (mput k v m) (k :: ks).
Proof. intros H x I. apply sput_keys in I as [->|I]; [left; reflexivity|right; apply H; exact I]. Qed.
Lemma kfrom_put {V} k (v : V) m ks : kfrom m ks -> kfrom (kput (KStr k) v m) (k :: ks).
Proof. intros H x I. apply sput_keys in I as [->|I]; [exists k; split; [reflexivity|left; reflexivity]|]. destruct (H x I) as [s [E J]]. exists s. split; [exact E|right; exact J]. Qed.
Lemma from_more {V} (m : amap string V) x ks : from m ks -> from m (x :: ks).
Proof. intros H k I. right. apply H. exact I. Qed.
Lemma kfrom_more {V} (m : amap gkey V) x ks : kfrom m ks -> kfrom m (x :: ks).
Proof. intros H k I. destruct (H k I) as [s [E J]]. exists s. split; [exact E|right; exact J]. Qed.
Lemma own_more {K V} key (m : amap K V) x ks : own key m ks -> own key m (x :: ks).
Proof. intros [H|H]; [left; right; exact H|right; exact H]. Qed.
Lemma own_here {K V} key (m : amap K V) ks : own key m (key :: ks).
Proof. left. left. reflexivity. Qed.
Lemma own_empty {K V} key (m : amap K V) ks : own key m ks -> ~ In key ks -> ents m = [].
Proof. intros [H|H] N; [contradiction|exact H]. Qed.

Lemma from_free {V} k (m : amap string V) ks : from m ks -> ~ In k ks -> put_cost String.eqb k m = 0.
Proof.
  intros H N. unfold put_cost. destruct (shas String.eqb k (ents m)) eqn:E; [exfalso|reflexivity]. apply existsb_exists in E as [e [I E]]. apply String.eqb_eq in E. subst.
  apply N. apply H. apply in_map. exact I.
Qed.
Lemma kfrom_free {V} k (m : amap gkey V) ks : kfrom m ks -> ~ In k ks -> put_cost gkey_eqb (KStr k) m = 0.
Proof.
  intros H N. unfold put_cost. destruct (shas gkey_eqb (KStr k) (ents m)) eqn:E; [exfalso|reflexivity]. apply existsb_exists in E as [e [I E]].
  destruct (H (fst e) (in_map fst _ _ I)) as [s [Es J]]. rewrite Es in E. cbn in E. apply String.eqb_eq in E. subst. contradiction.
Qed.

Lemma amap_flat {V} (dec : node -> res V) dcost m n : tidy n -> ents m = [] -> (forall v, tidy v -> nodes v < nodes n -> dcost v <= 2 * nodes v) -> amap_cost dec dcost m n <= 2 * nodes n.
Proof.
  intros T E H. destruct n as [t s|t l|t l]; try (cbn; lia). unfold amap_cost, map_cost. rewrite nodes_map in *. inversion T as [| |t' l' T1 T2]; subst.
  assert (fold_cost (read_amap_pair dec) (pair_cost dec dcost) m l + List.length l <= 2 * total pair_nodes l); [|lia].
  apply (fold_flat _ _ text from l) with (ks := []); [| |exact T2| |intros x []].
  - intros s e ks I R N. unfold pair_cost. pose proof (in_total pair_nodes e l I) as L. pose proof (pair_pos e) as P. unfold to_str. destruct (is_string (fst e)); [|lia].
    specialize (H (snd e) (proj2 (T1 e I))). destruct (dec (snd e)); [|lia|lia]. unfold text in N. rewrite (from_free _ _ ks R N). lia.
  - intros s s' e ks I R Es. unfold read_amap_pair in Es. apply bind_ok in Es as [k [Ek Es]]. apply bind_ok in Es as [v [_ Es]]. injection Es as <-.
    unfold to_str in Ek. destruct (is_string (fst e)); [|discriminate Ek]. injection Ek as <-. apply from_put. exact R.
  - intros x. rewrite E. intros [].
Qed.
Lemma free_flat v : free_cost v <= 2 * nodes v.
Proof. unfold free_cost. lia. Qed.
Lemma annotation_flat n : tidy n -> annotation_cost n <= 2 * nodes n.
Proof. intros T. apply amap_flat; [exact T|reflexivity|]. intros v _ _. apply free_flat. Qed.
Lemma items_flat n : items_cost n <= 2 * nodes n.
Proof. destruct n as [t s|t l|t l]; cbn [items_cost]; try lia. rewrite nodes_seq. pose proof (total_length nodes l (fun a _ => nodes_pos a)). lia. Qed.
Lemma xml_flat n : xml_cost n <= 2 * nodes n.
Proof. destruct n as [t s|t l|t l]; cbn [xml_cost]; try lia. rewrite nodes_map. assert (List.length l <= total pair_nodes l); [|lia]. apply total_length. intros a _. apply pair_one. Qed.

Section Proofs.
  Context {F : FloatIO}.

  Lemma scalar_text n s : is_string n = true -> to_scalar n = Ok s -> s = KStr (value n).
  Proof. destruct n as [t v|t l|t l]; try discriminate. destruct t; try discriminate. intros _ H. injection H as <-. reflexivity. Qed.
  Lemma extra_free {V} e (m : amap gkey V) ks : is_string (fst e) = true -> kfrom m ks -> ~ In (text e) ks -> match to_scalar (fst e) with Ok s => put_cost gkey_eqb s m | _ => 0 end = 0.
  Proof. intros T R N. destruct (to_scalar (fst e)) as [s| |] eqn:E; try reflexivity. rewrite (scalar_text _ _ T E). apply (kfrom_free _ _ ks); assumption. Qed.
  Lemma extra_from {V} e s (v : V) m ks : is_string (fst e) = true -> to_scalar (fst e) = Ok s -> kfrom m ks -> kfrom (kput s v m) (text e :: ks).
  Proof. intros T E R. rewrite (scalar_text _ _ T E). apply kfrom_put. exact R. Qed.

  (** ** Examples *)
  Definition ex_seen (e : ex) (ks : list string) : Prop := from (ex_anns e) ks /\ kfrom (ex_extra e) ks.

  Lemma ex_step_seen kd e e' p ks : is_string (fst p) = true -> ex_seen e ks -> ex_assign kd e p = Ok e' -> ex_seen e' (text p :: ks).
  Proof.
    intros T [R1 R2] E. pose proof (from_more _ (text p) _ R1) as G1. pose proof (kfrom_more _ (text p) _ R2) as G2. unfold ex_assign in E. rewrite T in E. cbn [negb] in E.
    destruct (value (fst p)) as [|c t] eqn:K; [discriminate E|]. rewrite <- K in *. destruct (Ascii.eqb c "(").
    { apply bind_ok in E as [s [_ E]]. injection E as <-. split; [|exact G2]. apply from_put. exact R1. }
    repeat (destruct (String.eqb (value (fst p)) _); [apply bind_ok in E as [s [_ E]]; injection E as <-; split; assumption|]).
    apply bind_ok in E as [s [Es E]]. injection E as <-. split; [exact G1|]. apply extra_from; assumption.
  Qed.
  Lemma ex_step_flat kd e p ks : is_string (fst p) = true -> tidy (snd p) -> ex_seen e ks -> ~ In (text p) ks -> ex_assign_cost kd e p <= 2 * nodes (snd p).
  Proof.
    intros T Tv [R1 R2] N. unfold ex_assign_cost. rewrite (extra_free p _ ks T R2 N), T. cbn [negb]. destruct (value (fst p)) as [|c t] eqn:K; [lia|]. rewrite <- K. destruct (Ascii.eqb c "(").
    { pose proof (annotation_flat (snd p) Tv). destruct (read_annotation _); [|lia|lia]. change (value (fst p)) with (text p). rewrite (from_free _ _ ks R1 N). lia. }
    pose proof (items_flat (snd p)). repeat (destruct (String.eqb (value (fst p)) _); [lia|]). lia.
  Qed.
  Lemma ex_flat kd n : tidy n -> ex_cost kd n <= 2 * nodes n.
  Proof.
    intros T. destruct n as [t s|t l|t l]; try apply items_flat. cbn [ex_cost]. rewrite nodes_map. inversion T as [| |t' l' T1 T2]; subst.
    assert (fold_cost (ex_assign kd) (ex_assign_cost kd) new_ex l + List.length l <= 2 * total pair_nodes l); [|lia].
    apply (fold_flat _ _ text ex_seen l) with (ks := []); [| |exact T2| |intros x []].
    - intros s e ks I. apply ex_step_flat; apply T1; exact I.
    - intros s s' e ks I. apply ex_step_seen. apply T1. exact I.
    - split; intros k [].
  Qed.

  (** ** Definitions *)
  Definition spec_seen (s : spec dtype) (ks : list string) : Prop := match s with SObject ps _ _ _ _ _ => own KeyProperties ps ks | _ => True end.
  Definition type_seen (d : dtype) (ks : list string) : Prop :=
    match d with
    | TBase b => kfrom (b_extra b) ks
    | TExt b x f c s => kfrom (b_extra b) ks /\ from (x_anns x) ks /\ own KeyFacets f ks /\ own KeyExamples (c_examples c) ks /\ spec_seen s ks
    end.
  Lemma spec_seen_more s x ks : spec_seen s ks -> spec_seen s (x :: ks).
  Proof. destruct s; cbn; auto. apply own_more. Qed.

  Lemma base_seen b b' key val ks : kfrom (b_extra b) ks -> base_assign b key val = Ok b' -> kfrom (b_extra b') (value key :: ks).
  Proof.
    intros H E. unfold base_assign in E. destruct (_ || _); [apply bind_ok in E as [s [_ E]]|]; injection E as <-; cbn; [apply kfrom_more; exact H|].
    apply kfrom_put. exact H.
  Qed.
  Lemma spec_step_seen h s s' k val ks : spec_seen s ks -> spec_assign h s k val = Some (Ok s') -> spec_seen s' (k :: ks).
  Proof.
    intros H E. pose proof (spec_seen_more s k ks H) as G.
    destruct s as [| | | | | |ps mn mx ad di dv|]; cbn [spec_assign] in E; try discriminate E.
    6: { destruct (String.eqb k KeyProperties) eqn:K; [apply String.eqb_eq in K; subst|clear K].
      { injection E as E. apply bind_ok in E as [v [_ E]]. injection E as <-. apply own_here. }
      do 4 (destruct (String.eqb k _); [injection E as E; apply bind_ok in E as [v [_ E]]; injection E as <-; exact G|]). destruct (String.eqb k _); [injection E as <-; exact G|discriminate E]. }
    all: repeat (match type of E with context [if String.eqb ?y ?x then _ else _] => destruct (String.eqb y x) end; [injection E as E; apply bind_ok in E as [v [_ E]]; injection E as <-; exact I|]); discriminate E.
  Qed.
  Lemma type_step_seen h d d' e ks : is_string (fst e) = true -> type_seen d ks -> type_assign h d e = Ok d' -> type_seen d' (text e :: ks).
  Proof.
    intros T R E. unfold type_assign in E. destruct d as [b|b x f c s].
    { apply bind_ok in E as [b' [Eb E]]. injection E as <-. exact (base_seen b b' _ _ ks R Eb). }
    destruct R as [R1 [R2 [R3 [R4 R5]]]]. pose proof (kfrom_more _ (text e) _ R1) as G1. pose proof (from_more _ (text e) _ R2) as G2.
    pose proof (own_more _ _ (text e) _ R3) as G3. pose proof (own_more _ _ (text e) _ R4) as G4. pose proof (spec_seen_more _ (text e) _ R5) as G5. change (value (fst e)) with (text e) in E.
    destruct (String.eqb (text e) KeyExample).
    { destruct (has_example (b_kind b)); [|discriminate E]. apply bind_ok in E as [v [_ E]]. injection E as <-. cbn. auto. }
    destruct (String.eqb (text e) KeyExamples) eqn:K1.
    { apply String.eqb_eq in K1. apply bind_ok in E as [v [Ev E]]. injection E as <-. cbn. repeat split; auto. rewrite K1. apply own_here. }
    destruct (String.eqb (text e) KeyEnum); [apply bind_ok in E as [v [_ E]]; injection E as <-; cbn; auto|].
    destruct (String.eqb (text e) KeyRequired); [apply bind_ok in E as [v [_ E]]; injection E as <-; cbn; auto|].
    destruct (spec_assign h s (text e) (snd e)) as [o|] eqn:Es.
    { apply bind_ok in E as [s' [-> E]]. injection E as <-. cbn. repeat split; auto. exact (spec_step_seen h s s' _ _ ks R5 Es). }
    apply bind_ok in E as [[[b' x'] f'] [Ee E]]. injection E as <-. unfold ext_assign in Ee. change (value (fst e)) with (text e) in Ee. rewrite T in Ee.
    destruct (String.eqb (text e) KeyDisplayName); [apply bind_ok in Ee as [v [_ Ee]]; injection Ee as <- <- <-; cbn; auto|].
    destruct (String.eqb (text e) KeyDescription); [apply bind_ok in Ee as [v [_ Ee]]; injection Ee as <- <- <-; cbn; auto|].
    destruct (String.eqb (text e) KeyFacets) eqn:K2.
    { apply String.eqb_eq in K2. apply bind_ok in Ee as [v [Ev Ee]]. injection Ee as <- <- <-. cbn. repeat split; auto. rewrite K2. apply own_here. }
    destruct (String.eqb (text e) KeyXML); [apply bind_ok in Ee as [v [_ Ee]]; injection Ee as <- <- <-; cbn; auto|].
    apply bind_ok in Ee as [u [Eu Ee]]. destruct u as [a|].
    - injection Ee as <- <- <-. cbn. repeat split; auto. unfold annotations_in in Eu. destruct (text e) as [|ch t] eqn:K; [discriminate Eu|]. destruct (Ascii.eqb ch "("); [|discriminate Eu].
      apply bind_ok in Eu as [v [_ Eu]]. injection Eu as <-. apply from_put. exact R2.
    - apply bind_ok in Ee as [b1 [Eb Ee]]. injection Ee as <- <- <-. cbn. repeat split; auto. exact (base_seen b b1 _ _ ks R1 Eb).
  Qed.

  Section Step.
    Variable h : node -> res dtype.
    Variable hcost : node -> nat.
    Variable e : node * node.
    Hypothesis Hc : forall v, tidy v -> nodes v <= nodes (snd e) -> hcost v <= 2 * nodes v.

    Lemma base_flat b ks : kfrom (b_extra b) ks -> ~ In (text e) ks -> base_cost b (fst e) = 0.
    Proof. intros H N. unfold base_cost. destruct (_ || _); [reflexivity|]. exact (kfrom_free _ _ ks H N). Qed.
    Lemma type_step_flat d ks : is_string (fst e) = true -> tidy (snd e) -> type_seen d ks -> ~ In (text e) ks -> type_cost h hcost d e <= 2 * nodes (snd e).
    Proof.
      intros T Tv R N. unfold type_cost. destruct d as [b|b x f c s]; [rewrite (base_flat b ks R N); lia|]. destruct R as [R1 [R2 [R3 [R4 R5]]]]. change (value (fst e)) with (text e).
      pose proof (items_flat (snd e)) as C1. pose proof (Hc (snd e) Tv (le_n _)) as C2.
      destruct (String.eqb (text e) KeyExample); [destruct (has_example (b_kind b)); [apply ex_flat; exact Tv|lia]|].
      destruct (String.eqb (text e) KeyExamples) eqn:K1.
      { apply String.eqb_eq in K1. rewrite K1 in N. apply amap_flat; [exact Tv|exact (own_empty _ _ _ R4 N)|]. intros v V _. apply ex_flat. exact V. }
      clear K1. destruct (String.eqb (text e) KeyEnum); [lia|]. destruct (String.eqb (text e) KeyRequired); [lia|].
      destruct (spec_assign h s (text e) (snd e)) as [o|].
      { unfold spec_cost. destruct s; try lia; destruct (String.eqb (text e) _) eqn:K; try lia.
        apply String.eqb_eq in K. rewrite K in N. apply amap_flat; [exact Tv|exact (own_empty _ _ _ R5 N)|]. intros v V L. apply Hc; [exact V|lia]. }
      unfold ext_cost. change (value (fst e)) with (text e). destruct (String.eqb (text e) KeyDisplayName); [lia|]. destruct (String.eqb (text e) KeyDescription); [lia|].
      destruct (String.eqb (text e) KeyFacets) eqn:K2.
      { apply String.eqb_eq in K2. rewrite K2 in N. apply amap_flat; [exact Tv|exact (own_empty _ _ _ R3 N)|]. intros v V L. apply amap_flat; [exact V|reflexivity|]. intros u U Lu. apply Hc; [exact U|lia]. }
      destruct (String.eqb (text e) KeyXML); [apply xml_flat|]. rewrite T. rewrite (base_flat b ks R1 N). destruct (text e) as [|ch t] eqn:K; [lia|]. rewrite <- K in *. destruct (Ascii.eqb ch "("); [|lia].
      pose proof (annotation_flat (snd e) Tv). destruct (read_annotation _); [|lia|lia]. rewrite (from_free _ _ ks R2 N). lia.
    Qed.
  End Step.

  Lemma new_seen k : type_seen (new_type k) [].
  Proof. destruct k; cbn; repeat split; try (intros x []); try (right; reflexivity); exact I. Qed.
  Lemma set_seen s d r : type_seen d r -> type_seen (set_schema s d) r.
  Proof. destruct d; exact (fun H => H). Qed.
  Lemma sift_seen l d : sift_type l = Ok d -> type_seen d [].
  Proof.
    assert (K : forall s, type_seen (type_to_kind s) []).
    { intros s. unfold type_to_kind. repeat (match goal with |- context [if ?b then _ else _] => destruct b end; [try apply set_seen; apply new_seen|]). apply set_seen. apply new_seen. }
    unfold sift_type. destruct (sift_scan l false false) as [[o pr] it]. destruct o as [tmp|].
    - destruct (is_string tmp); [intros H; injection H as <-; apply K|]. destruct (is_seq tmp); [discriminate|]. destruct (node_tag tmp); try discriminate. intros H. injection H as <-. intros x [].
    - destruct pr; [intros H; injection H as <-; cbn; repeat split; try (intros x []); try (right; reflexivity); exact I|].
      destruct it; intros H; injection H as <-; cbn; repeat split; try (intros x []); try (right; reflexivity); exact I.
  Qed.

  Lemma hat_flat_at : forall k n, nodes n < k -> tidy n -> hat_cost n <= 2 * nodes n.
  Proof.
    induction k as [|k IH]; intros n L T; [lia|]. rewrite hat_unfold. unfold hat_cost_body. destruct (is_string n); [lia|]. destruct n as [t s|t l|t l]; try lia. rewrite nodes_map in *.
    inversion T as [| |t' l' T1 T2]; subst. assert (Ll : List.length l <= total pair_nodes l) by (apply total_length; intros a _; apply pair_one).
    destruct (sift_type l) as [d| |] eqn:E; [|lia|lia].
    assert (fold_cost (type_assign hat) (type_cost hat hat_cost) d l + List.length l <= 2 * total pair_nodes l); [|lia].
    apply (fold_flat _ _ text type_seen l) with (ks := []); [| |exact T2| |intros x []].
    - intros s e ks I. apply type_step_flat; [|apply T1; exact I..]. intros v V Lv. apply IH; [|exact V]. pose proof (in_total pair_nodes e l I). pose proof (pair_pos e). lia.
    - intros s s' e ks I. apply type_step_seen. apply T1. exact I.
    - apply (sift_seen l). exact E.
  Qed.
  Lemma hat_flat n : tidy n -> hat_cost n <= 2 * nodes n.
  Proof. apply (hat_flat_at (Datatypes.S (nodes n))). lia. Qed.

  (** ** Documents *)
  Lemma doc_flat n : tidy n -> doc_cost n <= 2 * nodes n - 1.
  Proof.
    intros T. destruct n as [t s|t l|t l]; try (cbn; lia). unfold doc_cost, map_cost. rewrite nodes_map. inversion T as [| |t' l' T1 T2]; subst.
    assert (fold_cost doc_assign doc_assign_cost new_doc l + List.length l <= 2 * total pair_nodes l); [|lia].
    apply (fold_flat _ _ text (fun d ks => kfrom (doc_extra d) ks) l) with (ks := []); [| |exact T2|intros k []|intros x []].
    - intros s e ks I R N. unfold doc_assign_cost. rewrite (extra_free e _ ks (proj1 (T1 e I)) R N). destruct (String.eqb _ _); [lia|]. destruct (String.eqb _ _); lia.
    - intros s s' e ks I R E. unfold doc_assign in E. destruct (String.eqb _ _); [injection E as <-; apply kfrom_more; exact R|]. destruct (String.eqb _ _); [injection E as <-; apply kfrom_more; exact R|].
      apply bind_ok in E as [k [Ek E]]. injection E as <-. apply (extra_from e k (GNode (snd e)) _ ks (proj1 (T1 e I)) Ek R).
  Qed.
  Lemma docs_flat n old : tidy n -> docs_cost n old <= 2 * nodes n.
  Proof.
    intros T. destruct n as [t s|t l|t l]; try (cbn; lia). unfold docs_cost. rewrite nodes_seq. inversion T as [|t' l' T1|]; subst. cut (fold_cost read_doc (fun _ => doc_cost) old l <= 2 * total nodes l); [lia|].
    clear T. revert old T1. induction l as [|a l IH]; intros old T1; [cbn; lia|]. rewrite total_cons. cbn [fold_cost]. pose proof (doc_flat a (T1 a (or_introl eq_refl))) as D. pose proof (nodes_pos a) as P.
    destruct (read_doc old a) as [o| |]; [|lia|lia]. specialize (IH o (fun n I => T1 n (or_intror I))). lia.
  Qed.

  (** [schemas] is another name of [types] *)
  Definition section (e : node * node) : string := if String.eqb (text e) KeySchemas then KeyTypes else text e.

  Definition api_seen (a : api) (ks : list string) : Prop :=
    own KeyBaseURIParams (a_baseURIParameters a) ks /\ own KeyTypes (a_types a) ks /\ own KeyTraits (a_traits a) ks /\ own KeyResourceTypes (a_resourceTypes a) ks /\
    own KeyAnnotationTypes (a_annotationTypes a) ks /\ from (a_annotations a) ks /\ own KeySecuritySchemes (a_securitySchemes a) ks /\ own KeyUses (a_uses a) ks /\
    from (a_resources a) ks /\ kfrom (a_extra a) ks.
  Lemma section_own e key : String.eqb (text e) key = true -> key <> KeySchemas -> section e = key.
  Proof. intros K N. apply String.eqb_eq in K. unfold section. rewrite K. apply String.eqb_neq in N. rewrite N. reflexivity. Qed.
  Lemma section_other e : String.eqb (text e) KeySchemas = false -> section e = text e.
  Proof. unfold section. intros ->. reflexivity. Qed.
  Lemma section_char e c t : text e = String c t -> Ascii.eqb c "s" = false -> section e = text e.
  Proof. intros K N. apply section_other. rewrite K. cbn. rewrite N. reflexivity. Qed.
  Lemma section_types e : String.eqb (text e) KeyTypes || String.eqb (text e) KeySchemas = true -> section e = KeyTypes.
  Proof. unfold section. destruct (String.eqb (text e) KeySchemas); [reflexivity|]. rewrite orb_false_r. apply String.eqb_eq. Qed.

  Ltac mine K := rewrite (section_own _ _ K); [apply own_here|discriminate].
  Ltac not_s C := intros; match goal with H : Ascii.eqb ?c _ = true |- _ => apply Ascii.eqb_eq in H; subst c; reflexivity end.
  Lemma api_step_seen a a' e ks : is_string (fst e) = true -> api_seen a ks -> api_assign a e = Ok a' -> api_seen a' (section e :: ks).
  Proof.
    intros T R E. assert (G : api_seen a (section e :: ks)).
    { destruct R as [R1 [R2 [R3 [R4 [R5 [R6 [R7 [R8 [R9 R10]]]]]]]]]. repeat split; try (apply own_more; assumption); try (apply from_more; assumption). apply kfrom_more. assumption. }
    destruct R as [R1 [R2 [R3 [R4 [R5 [R6 [R7 [R8 [R9 R10]]]]]]]]]. destruct G as [G1 [G2 [G3 [G4 [G5 [G6 [G7 [G8 [G9 G10]]]]]]]]].
    unfold api_assign in E. rewrite T in E. cbn [negb] in E. change (value (fst e)) with (text e) in E. destruct (text e) as [|c t] eqn:K; [discriminate E|]. rewrite <- K in E.
    destruct (Ascii.eqb c "(") eqn:C1.
    { apply bind_ok in E as [s [_ E]]. injection E as <-. unfold api_seen. cbn. repeat split; auto. rewrite (section_char e c t K); [apply from_put; assumption|apply Ascii.eqb_eq in C1; subst c; reflexivity]. }
    destruct (Ascii.eqb c "/") eqn:C2.
    { injection E as <-. unfold api_seen. cbn. repeat split; auto. rewrite (section_char e c t K); [apply from_put; assumption|apply Ascii.eqb_eq in C2; subst c; reflexivity]. }
    do 8 (destruct (String.eqb (text e) _); [apply bind_ok in E as [s [_ E]]; injection E as <-; unfold api_seen; cbn; repeat split; auto|]).
    do 6 (match type of E with context [if String.eqb (text e) ?x then _ else _] => destruct (String.eqb (text e) x) eqn:Kx end; [apply bind_ok in E as [s [Es E]]; injection E as <-; unfold api_seen; cbn; repeat split; auto; mine Kx|clear Kx]).
    destruct (_ || _) eqn:Kx; [apply bind_ok in E as [s [Es E]]; injection E as <-; unfold api_seen; cbn; repeat split; auto; rewrite (section_types e Kx); apply own_here|].
    apply orb_false_iff in Kx as [_ Kx]. apply bind_ok in E as [s [Es E]]. injection E as <-. unfold api_seen. cbn. repeat split; auto. rewrite (section_other e Kx). apply extra_from; assumption.
  Qed.

  Ltac mine_flat K N Tv R := rewrite (section_own _ _ K) in N by discriminate; apply amap_flat; [exact Tv|exact (own_empty _ _ _ R N)|intros v _ _; apply free_flat].
  Lemma api_step_flat a e ks : is_string (fst e) = true -> tidy (snd e) -> api_seen a ks -> ~ In (section e) ks -> api_cost a e <= 2 * nodes (snd e).
  Proof.
    intros T Tv [R1 [R2 [R3 [R4 [R5 [R6 [R7 [R8 [R9 R10]]]]]]]]] N. unfold api_cost. rewrite T. cbn [negb]. change (value (fst e)) with (text e).
    pose proof (items_flat (snd e)) as C. pose proof (docs_flat (snd e) (a_documentation a) Tv) as D.
    destruct (text e) as [|c t] eqn:K; [lia|]. rewrite <- K.
    destruct (Ascii.eqb c "(") eqn:C1.
    { rewrite (section_char e c t K) in N by (apply Ascii.eqb_eq in C1; subst c; reflexivity). pose proof (annotation_flat (snd e) Tv). destruct (read_annotation _); [|lia|lia]. rewrite (from_free _ _ ks R6 N). lia. }
    destruct (Ascii.eqb c "/") eqn:C2.
    { rewrite (section_char e c t K) in N by (apply Ascii.eqb_eq in C2; subst c; reflexivity). rewrite (from_free _ _ ks R9 N). lia. }
    do 8 (destruct (String.eqb (text e) _); [lia|]).
    destruct (String.eqb (text e) KeyUses) eqn:K1; [mine_flat K1 N Tv R8|]. destruct (String.eqb (text e) KeySecuritySchemes) eqn:K2; [mine_flat K2 N Tv R7|].
    destruct (String.eqb (text e) KeyBaseURIParams) eqn:K3; [mine_flat K3 N Tv R1|]. destruct (String.eqb (text e) KeyTraits) eqn:K4; [mine_flat K4 N Tv R3|].
    destruct (String.eqb (text e) KeyAnnotationTypes) eqn:K5; [mine_flat K5 N Tv R5|]. destruct (String.eqb (text e) KeyResourceTypes) eqn:K6; [mine_flat K6 N Tv R4|].
    destruct (_ || _) eqn:K7; [rewrite (section_types e K7) in N; apply amap_flat; [exact Tv|exact (own_empty _ _ _ R2 N)|intros v V _; apply hat_flat; exact V]|].
    apply orb_false_iff in K7 as [_ K7]. rewrite (section_other e K7) in N. rewrite (extra_free e _ ks T R10 N). lia.
  Qed.
  Lemma api_flat t l : tidy (Map t l) -> NoDup (map section l) -> api_load_cost (Map t l) new_api <= 2 * nodes (Map t l).
  Proof.
    intros T N. unfold api_load_cost, map_cost. rewrite nodes_map. inversion T as [| |t' l' T1 T2]; subst.
    assert (fold_cost api_assign api_cost new_api l + List.length l <= 2 * total pair_nodes l); [|lia].
    apply (fold_flat _ _ section api_seen l) with (ks := []); [| |exact N| |intros x []].
    - intros s e ks I. apply api_step_flat; apply T1; exact I.
    - intros s s' e ks I. apply api_step_seen. apply T1. exact I.
    - repeat split; try (intros x []); right; reflexivity.
  Qed.

  (** [p]: the library has entries in parentheses, and no section [annotationTypes] *)
  Definition lib_seen (p : bool) (a : library) (ks : list string) : Prop :=
    own KeyTypes (l_types a) ks /\ own KeyTraits (l_traits a) ks /\ own KeyResourceTypes (l_resourceTypes a) ks /\
    (if p then from (l_annotations a) ks else own KeyAnnotationTypes (l_annotations a) ks) /\ own KeySecuritySchemes (l_securitySchemes a) ks /\ own KeyUses (l_uses a) ks /\ kfrom (l_extra a) ks.
  Definition paren (e : node * node) : bool := match text e with String c _ => Ascii.eqb c "(" | _ => false end.
  Definition one_source (p : bool) (e : node * node) : Prop := if p then text e <> KeyAnnotationTypes else paren e = false.
  Lemma lib_step_seen p a a' e ks : is_string (fst e) = true -> one_source p e -> lib_seen p a ks -> lib_assign a e = Ok a' -> lib_seen p a' (section e :: ks).
  Proof.
    intros T O R E. assert (G : lib_seen p a (section e :: ks)).
    { destruct R as [R1 [R2 [R3 [R4 [R5 [R6 R7]]]]]]. repeat split; try (apply own_more; assumption); [destruct p; [apply from_more|apply own_more]; exact R4|]. apply kfrom_more. assumption. }
    destruct R as [R1 [R2 [R3 [R4 [R5 [R6 R7]]]]]]. destruct G as [G1 [G2 [G3 [G4 [G5 [G6 G7]]]]]].
    unfold lib_assign in E. rewrite T in E. change (value (fst e)) with (text e) in E.
    destruct (String.eqb (text e) KeyAnnotationTypes) eqn:K1.
    { destruct p; [exfalso; apply O; apply String.eqb_eq; exact K1|]. apply bind_ok in E as [s [Es E]]. injection E as <-. unfold lib_seen. cbn. repeat split; auto. mine K1. }
    destruct (String.eqb (text e) KeyResourceTypes) eqn:K2; [apply bind_ok in E as [s [Es E]]; injection E as <-; unfold lib_seen; cbn; repeat split; auto; mine K2|].
    destruct (_ || _) eqn:K3; [apply bind_ok in E as [s [Es E]]; injection E as <-; unfold lib_seen; cbn; repeat split; auto; rewrite (section_types e K3); apply own_here|].
    destruct (String.eqb (text e) KeyTraits) eqn:K4; [apply bind_ok in E as [s [Es E]]; injection E as <-; unfold lib_seen; cbn; repeat split; auto; mine K4|].
    destruct (String.eqb (text e) KeyUses) eqn:K5; [apply bind_ok in E as [s [Es E]]; injection E as <-; unfold lib_seen; cbn; repeat split; auto; mine K5|].
    destruct (String.eqb (text e) KeyUsage); [apply bind_ok in E as [s [Es E]]; injection E as <-; unfold lib_seen; cbn; repeat split; auto|].
    destruct (String.eqb (text e) KeySecuritySchemes) eqn:K6; [apply bind_ok in E as [s [Es E]]; injection E as <-; unfold lib_seen; cbn; repeat split; auto; mine K6|].
    apply orb_false_iff in K3 as [_ K3]. destruct (text e) as [|c t] eqn:K; [discriminate E|]. rewrite <- K in *. destruct (Ascii.eqb c "(") eqn:C.
    - destruct p; [|exfalso; unfold one_source, paren in O; rewrite K, C in O; discriminate O].
      apply bind_ok in E as [s [_ E]]. injection E as <-. unfold lib_seen. cbn. repeat split; auto. rewrite (section_other e K3). apply from_put. exact R4.
    - apply bind_ok in E as [s [Es E]]. injection E as <-. unfold lib_seen. cbn. repeat split; auto. rewrite (section_other e K3). apply extra_from; assumption.
  Qed.
  Lemma lib_step_flat p a e ks : is_string (fst e) = true -> tidy (snd e) -> one_source p e -> lib_seen p a ks -> ~ In (section e) ks -> lib_cost a e <= 2 * nodes (snd e).
  Proof.
    intros T Tv O [R1 [R2 [R3 [R4 [R5 [R6 R7]]]]]] N. unfold lib_cost. rewrite T. change (value (fst e)) with (text e).
    destruct (String.eqb (text e) KeyAnnotationTypes) eqn:K1.
    { destruct p; [exfalso; apply O; apply String.eqb_eq; exact K1|]. rewrite (section_own _ _ K1) in N by discriminate. apply amap_flat; [exact Tv|exact (own_empty _ _ _ R4 N)|]. intros v V _. apply annotation_flat. exact V. }
    destruct (String.eqb (text e) KeyResourceTypes) eqn:K2; [mine_flat K2 N Tv R3|].
    destruct (_ || _) eqn:K3; [rewrite (section_types e K3) in N; apply amap_flat; [exact Tv|exact (own_empty _ _ _ R1 N)|intros v V _; apply hat_flat; exact V]|].
    destruct (String.eqb (text e) KeyTraits) eqn:K4; [mine_flat K4 N Tv R2|]. destruct (String.eqb (text e) KeyUses) eqn:K5; [mine_flat K5 N Tv R6|].
    destruct (String.eqb (text e) KeyUsage); [lia|]. destruct (String.eqb (text e) KeySecuritySchemes) eqn:K6; [mine_flat K6 N Tv R5|].
    apply orb_false_iff in K3 as [_ K3]. rewrite (section_other e K3) in N. rewrite (extra_free e _ ks T R7 N). destruct (text e) as [|c t] eqn:K; [lia|]. rewrite <- K in *. destruct (Ascii.eqb c "(") eqn:C; [|lia].
    destruct p; [|exfalso; unfold one_source, paren in O; rewrite K, C in O; discriminate O].
    pose proof (annotation_flat (snd e) Tv). destruct (read_annotation _); [|lia|lia]. rewrite (from_free _ _ ks R4 N). lia.
  Qed.
  Lemma lib_flat p t l : tidy (Map t l) -> NoDup (map section l) -> (forall e, In e l -> one_source p e) -> lib_load_cost (Map t l) new_library <= 2 * nodes (Map t l).
  Proof.
    intros T N O. unfold lib_load_cost, map_cost. rewrite nodes_map. inversion T as [| |t' l' T1 T2]; subst.
    assert (fold_cost lib_assign lib_cost new_library l + List.length l <= 2 * total pair_nodes l); [|lia].
    apply (fold_flat _ _ section (lib_seen p) l) with (ks := []); [| |exact N| |intros x []].
    - intros s e ks I. apply lib_step_flat; [apply T1|apply T1|apply O]; exact I.
    - intros s s' e ks I. apply lib_step_seen; [apply T1|apply O]; exact I.
    - unfold lib_seen. destruct p; repeat split; try (intros x []); right; reflexivity.
  Qed.
End Proofs.
