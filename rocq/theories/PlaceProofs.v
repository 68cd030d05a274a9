(** Proofs of C81. *)
From Coq Require Import SpecFloat.
From Verif Require Import Base Num OMap OMapSpec Keys Yaml Values Assign Formats Meta Out Xml Example DataType Marshal Doc Api Library Setters Live Objects
  AssignProofs TypeFacts Fields FieldProofs FacetSpec FacetProofs DocProofs OrderProofs PathProofs Lens Segs ExProofs WriteProofs ReadInv Same ExRound TypeSegs WriteSpec
  RoundSpec WasRead Writable Parts ApiFields ApiSpec ApiWrite LibRound ObjProofs Places.

(** ** Lists of entries *)

Lemma others_refl {K V} (P : K -> Prop) (l : list (K * V)) : others P l l.
Proof. induction l as [|e l IH]; constructor; exact IH. Qed.

Lemma others_app {K V} (P : K -> Prop) (a a' b b' : list (K * V)) : others P a a' -> others P b b' -> others P (a ++ b) (a' ++ b').
Proof. intros H Hb. induction H as [|e l l' H IH|e l l' Pe H IH|e l l' Pe H IH]; cbn [app]; [exact Hb| | |]; constructor; assumption. Qed.

Lemma others_all {K V} (P : K -> Prop) (a b : list (K * V)) : (forall k, In k (map fst a) -> P k) -> (forall k, In k (map fst b) -> P k) -> others P a b.
Proof.
  intros Ha Hb. induction a as [|e a IH].
  - induction b as [|e b IH]; [constructor|]. apply others_new; [apply Hb; left; reflexivity|]. apply IH. intros k H. apply Hb. right. exact H.
  - apply others_old; [apply Ha; left; reflexivity|]. apply IH. intros k H. apply Ha. right. exact H.
Qed.

Lemma others_weak {K V} (P Q : K -> Prop) (a b : list (K * V)) : (forall k, P k -> Q k) -> others P a b -> others Q a b.
Proof.
  intros W H. induction H as [|e l l' H IH|e l l' Pe H IH|e l l' Pe H IH].
  - constructor.
  - apply others_same. exact IH.
  - apply others_old; auto.
  - apply others_new; auto.
Qed.

Lemma others_filter {K V} (P : K -> Prop) (f : K * V -> bool) (a b : list (K * V)) : others P a b -> others P (filter f a) (filter f b).
Proof.
  intros H. induction H as [|e l l' H IH|e l l' Pe H IH|e l l' Pe H IH]; cbn [filter].
  - constructor.
  - destruct (f e); [constructor|]; exact IH.
  - destruct (f e); [apply others_old|]; assumption.
  - destruct (f e); [apply others_new|]; assumption.
Qed.

Lemma others_drop {K V} (P : K -> Prop) (f : K * V -> bool) (a b : list (K * V)) :
  (forall e, f e = false -> P (fst e)) -> others P a b -> others P (filter f a) b.
Proof.
  intros W H. induction H as [|e l l' H IH|e l l' Pe H IH|e l l' Pe H IH]; cbn [filter].
  - constructor.
  - destruct (f e) eqn:E; [apply others_same; exact IH|]. apply others_new; [exact (W e E)|exact IH].
  - destruct (f e); [apply others_old|]; assumption.
  - apply others_new; assumption.
Qed.

Lemma others_sym {K V} (P : K -> Prop) (a b : list (K * V)) : others P a b -> others P b a.
Proof.
  intros H. induction H as [|e l l' H IH|e l l' Pe H IH|e l l' Pe H IH].
  - constructor.
  - apply others_same. exact IH.
  - apply others_new; assumption.
  - apply others_old; assumption.
Qed.

(** A method of a map *)
Lemma op_others {K V} (keq : K -> K -> bool) (P : K -> Prop) (o : op K V) (m : amap K V) :
  (forall a b, keq a b = true -> P b -> P a) -> (forall k, op_key o = Some k -> P k) -> others P (ents m) (ents (map_edit keq o m)).
Proof.
  intros C W.
  assert (D : forall k, P k -> others P (ents m) (sdelete keq k (ents m))).
  { intros k Pk. apply others_sym. unfold sdelete. apply others_drop; [|apply others_refl]. intros e E. unfold other in E. apply Bool.negb_false_iff in E.
    exact (C _ _ E Pk). }
  assert (U : forall k v, P k -> others P (ents m) (sput keq k v (ents m))).
  { intros k v Pk. unfold sput. rewrite <- (app_nil_r (ents m)) at 1. apply others_app; [exact (D k Pk)|]. apply others_new; [exact Pk|constructor]. }
  assert (R : forall k v, P k -> others P (ents m) (sreplace keq k v (ents m))).
  { intros k v Pk. unfold sreplace. clear D U. induction (ents m) as [|e l IH]; [constructor|]. cbn [map].
    destruct (keq (fst e) k) eqn:E; [|apply others_same; exact IH].
    apply others_old; [exact (C _ _ E Pk)|]. apply others_new; [exact (C _ _ E Pk)|exact IH]. }
  unfold map_edit. cbn [ents]. destruct o; cbn [sstep op_key] in *; try apply others_refl; try (apply U; apply W; reflexivity); try (apply R; apply W; reflexivity);
    try (apply D; apply W; reflexivity).
  - destruct v; [apply U; apply W; reflexivity|apply others_refl].
  - destruct (shas keq k (ents m)); [apply R|apply U]; apply W; reflexivity.
  - destruct (sat _ _); apply others_refl.
Qed.

(** ** What the marshal functions put out *)

Lemma oput_others (P : gkey -> Prop) k v o o' : others P o o' -> others P (oput k v o) (oput k v o').
Proof. intros H. unfold oput, sput, sdelete. apply others_app; [apply others_filter; exact H|apply others_refl]. Qed.

Lemma oput_others_old (P : gkey -> Prop) k v o o' : (forall a b, gkey_eqb a b = true -> P b -> P a) -> P k -> others P o o' -> others P (oput k v o) o'.
Proof.
  intros C Pk H. unfold oput, sput, sdelete. rewrite <- (app_nil_r o'). apply others_app; [|apply others_old; [exact Pk|constructor]].
  apply others_drop; [|exact H]. intros e E. unfold other in E. apply Bool.negb_false_iff in E. exact (C _ _ E Pk).
Qed.

Lemma puts_others (P : gkey -> Prop) l l' : (forall a b, gkey_eqb a b = true -> P b -> P a) -> others P l l' -> forall o o', others P o o' -> others P (puts_all l o) (puts_all l' o').
Proof.
  intros C H. induction H as [|e l l' H IH|e l l' Pe H IH|e l l' Pe H IH]; intros o o' Ho.
  - exact Ho.
  - apply (IH (oput (fst e) (snd e) o) (oput (fst e) (snd e) o')). apply oput_others. exact Ho.
  - apply (IH (oput (fst e) (snd e) o) o'). apply oput_others_old; assumption.
  - apply (IH o (oput (fst e) (snd e) o')). apply others_sym, oput_others_old; [exact C|exact Pe|apply others_sym; exact Ho].
Qed.

(** Same keys, same values but for one key *)
Definition alike {K V} (k : K) (R : V -> V -> Prop) (e e' : K * V) : Prop := fst e = fst e' /\ (snd e = snd e' \/ fst e = k /\ R (snd e) (snd e')).

Lemma alike_refl {K V} k R (l : list (K * V)) : Forall2 (alike k R) l l.
Proof. induction l as [|e l IH]; constructor; [split; [reflexivity|left; reflexivity]|exact IH]. Qed.

Lemma oput_alike k R a v v' o o' : Forall2 (alike k R) o o' -> alike k R (a, v) (a, v') -> Forall2 (alike k R) (oput a v o) (oput a v' o').
Proof.
  intros H Ha. unfold oput, sput, sdelete. apply Forall2_app; [|constructor; [exact Ha|constructor]].
  induction H as [|e e' l l' He H IH]; [constructor|]. cbn [filter]. unfold other. destruct He as [E He]. rewrite <- E.
  destruct (negb _); [|exact IH]. constructor; [split; assumption|exact IH].
Qed.

Lemma puts_alike k R l l' : Forall2 (alike k R) l l' -> forall o o', Forall2 (alike k R) o o' -> Forall2 (alike k R) (puts_all l o) (puts_all l' o').
Proof.
  intros H. induction H as [|e e' l l' He H IH]; intros o o' Ho; [exact Ho|].
  apply (IH (oput (fst e) (snd e) o) (oput (fst e') (snd e') o')). destruct He as [E He]. rewrite <- E. apply oput_alike; [exact Ho|].
  split; [reflexivity|exact He].
Qed.

Lemma alike_others {K V} (P : K -> Prop) k R (l l' : list (K * V)) : P k -> Forall2 (alike k R) l l' -> others P l l'.
Proof.
  intros Pk H. induction H as [|e e' l l' [E [He|[He _]]] H IH]; [constructor| |].
  - replace e' with e; [apply others_same; exact IH|]. destruct e, e'; cbn in *; congruence.
  - apply others_old; [rewrite He; exact Pk|]. apply others_new; [rewrite <- E, He; exact Pk|exact IH].
Qed.

Section Written.
  Context {F : FloatIO}.
  Hypothesis tame : forall x, fst (float_text x) <> TStr.

  (** ** Maps *)

  Definition wr {K V : Type} (kn : K -> res node) (vn : V -> res node) (e : K * V) (p : node * node) : Prop := kn (fst e) = Ok (fst p) /\ vn (snd e) = Ok (snd p).

  Lemma wr_others {K V : Type} (kn : K -> res node) (vn : V -> res node) (Q : K -> Prop) (P : node -> Prop) a b :
    (forall k n, Q k -> kn k = Ok n -> P n) -> others Q a b -> forall l l', Forall2 (wr kn vn) a l -> Forall2 (wr kn vn) b l' -> others P l l'.
  Proof.
    intros W H. induction H as [|e a b H IH|e a b Pe H IH|e a b Pe H IH]; intros l l' Ha Hb.
    - inversion Ha; subst. inversion Hb; subst. constructor.
    - inversion Ha as [|x p x0 l0 Hp Hl]; subst. inversion Hb as [|y p' y0 l0' Hp' Hl']; subst.
      replace p' with p; [apply others_same; exact (IH _ _ Hl Hl')|]. destruct Hp as [A B], Hp' as [A' B']. destruct p, p'; cbn in *; congruence.
    - inversion Ha as [|x p x0 l0 Hp Hl]; subst. apply others_old; [exact (W _ _ Pe (proj1 Hp))|exact (IH _ _ Hl Hb)].
    - inversion Hb as [|x p x0 l0 Hp Hl]; subst. apply others_new; [exact (W _ _ Pe (proj1 Hp))|exact (IH _ _ Ha Hl)].
  Qed.

  (** Both can be saved, and then so that they differ in [D] *)
  Definition both (D : node -> node -> Prop) (r r' : res node) : Prop := forall n n', r = Ok n -> r' = Ok n' -> D n n'.

  Lemma wr_alike {K V : Type} (kn : K -> res node) (vn : V -> res node) k nk (D : node -> node -> Prop) a b :
    kn k = Ok nk -> Forall2 (alike k (fun v v' => both D (vn v) (vn v'))) a b -> forall l l', Forall2 (wr kn vn) a l -> Forall2 (wr kn vn) b l' ->
    Forall2 (fun e e' => fst e = fst e' /\ (snd e = snd e' \/ fst e = nk /\ D (snd e) (snd e'))) l l'.
  Proof.
    intros Hk H. induction H as [|e e' a b [E He] H IH]; intros l l' Ha Hb.
    - inversion Ha; subst. inversion Hb; subst. constructor.
    - inversion Ha as [|x p x0 l0 [A B] Hl]; subst. inversion Hb as [|y p' y0 l0' [A' B'] Hl']; subst.
      constructor; [|exact (IH _ _ Hl Hl')]. rewrite <- E in A'. split; [congruence|]. destruct He as [He|[He R]].
      + left. rewrite He in B. congruence.
      + right. split; [rewrite He in A; congruence|exact (R _ _ B B')].
  Qed.

  Lemma map_to_yaml_ok {K V : Type} (kn : K -> res node) (vn : V -> res node) (m : amap K V) n : map_to_yaml kn vn m = Ok n ->
    exists l, Forall2 (wr kn vn) (ents m) l /\ n = if oord m then Seq TOMap (map single l) else Map TMap l.
  Proof.
    unfold map_to_yaml. destruct (oord m); intros H; apply bind_ok in H as [l [Hl E]]; injection E as <-.
    - apply map_res_ok in Hl. clear - Hl. induction Hl as [|e x es xs He _ [l [IH E]]]; [exists []; split; [constructor|reflexivity]|].
      apply bind_ok in He as [p [Hp He]]. injection He as <-. exists (p :: l). split; [|cbn [map]; unfold single at 1; injection E as <-; reflexivity].
      constructor; [|exact IH]. unfold entry_node in Hp. apply bind_ok in Hp as [a [Ha Hp]]. apply bind_ok in Hp as [b [Hb Hp]]. injection Hp as <-. split; assumption.
    - apply map_res_entries in Hl. exists l. split; [exact Hl|reflexivity].
  Qed.

  Lemma map_here {K V : Type} (kn : K -> res node) (vn : V -> res node) (Q : K -> Prop) (P : node -> Prop) (m m' : amap K V) :
    (forall k n, Q k -> kn k = Ok n -> P n) -> oord m' = oord m -> others Q (ents m) (ents m') -> both (differ P []) (map_to_yaml kn vn m) (map_to_yaml kn vn m').
  Proof.
    intros W O H n n' E E'. apply map_to_yaml_ok in E as [l [Hl ->]]. apply map_to_yaml_ok in E' as [l' [Hl' ->]].
    rewrite O. pose proof (wr_others kn vn Q P _ _ W H _ _ Hl Hl') as D. destruct (oord m); [apply differ_here_ordered|apply differ_here]; exact D.
  Qed.

  Lemma map_in {K V : Type} (kn : K -> res node) (vn : V -> res node) k nk P p (m m' : amap K V) :
    kn k = Ok nk -> oord m' = oord m -> Forall2 (alike k (fun v v' => both (differ P p) (vn v) (vn v'))) (ents m) (ents m') ->
    both (differ P (nk :: p)) (map_to_yaml kn vn m) (map_to_yaml kn vn m').
  Proof.
    intros Hk O H n n' E E'. apply map_to_yaml_ok in E as [l [Hl ->]]. apply map_to_yaml_ok in E' as [l' [Hl' ->]].
    rewrite O. pose proof (wr_alike kn vn k nk (differ P p) _ _ Hk H _ _ Hl Hl') as D. destruct (oord m); [apply differ_in_ordered|apply differ_in]; exact D.
  Qed.

  (** ** Lists of what is put out *)

  Definition closed (Q : gkey -> Prop) : Prop := forall a b, gkey_eqb a b = true -> Q b -> Q a.
  Definition puts_same_but (s : spot) (l l' : outm) : Prop :=
    match s with
    | Anywhere => True
    | Only [] P => exists Q, closed Q /\ (forall k n, Q k -> key_node k = Ok n -> P n) /\ others Q l l'
    | Only (k :: p) P => exists K, key_node K = Ok k /\ (forall s, k = str_node s -> K = KStr s) /\ Forall2 (alike K (both (differ P p))) l l'
    end.

  Lemma closed_str s : closed (eq (KStr s)).
  Proof. intros a b E <-. destruct a; cbn in E; try discriminate. apply String.eqb_eq in E. congruence. Qed.

  Lemma puts_same_app s a b l l' : puts_same_but s l l' -> puts_same_but s (a ++ l ++ b) (a ++ l' ++ b).
  Proof.
    destruct s as [|[|k p] P]; cbn [puts_same_but]; [auto| |].
    - intros [Q [C [W H]]]. exists Q. split; [exact C|]. split; [exact W|]. apply others_app; [apply others_refl|]. apply others_app; [exact H|apply others_refl].
    - intros [K [E [U H]]]. exists K. split; [exact E|]. split; [exact U|]. apply Forall2_app; [apply alike_refl|]. apply Forall2_app; [exact H|apply alike_refl].
  Qed.

  Lemma puts_same_front s a l l' : puts_same_but s l l' -> puts_same_but s (a ++ l) (a ++ l').
  Proof. intros H. rewrite <- (app_nil_r l), <- (app_nil_r l'). apply puts_same_app. exact H. Qed.
  Lemma puts_same_back s b l l' : puts_same_but s l l' -> puts_same_but s (l ++ b) (l' ++ b).
  Proof. exact (puts_same_app s [] b l l'). Qed.

  Lemma puts_same_entry k l l' : (forall e, In e l -> fst e = KStr k) -> (forall e, In e l' -> fst e = KStr k) -> puts_same_but (entry k) l l'.
  Proof.
    intros H H'. exists (eq (KStr k)). split; [apply closed_str|]. split; [intros a n <- E; cbn in E; congruence|].
    apply others_all; intros a Ha; apply in_map_iff in Ha as [e [<- Ha]]; symmetry; auto.
  Qed.

  Lemma opt_seg_key k v e : In e (opt_seg k v) -> fst e = KStr k.
  Proof. unfold opt_seg. destruct v; [|intros []]. intros [<-|[]]. reflexivity. Qed.
  Lemma if_seg_key c k v e : In e (if_seg c k v) -> fst e = KStr k.
  Proof. unfold if_seg. destruct c; [|intros []]. intros [<-|[]]. reflexivity. Qed.

  (** What is at a place of the value under [k] *)
  Lemma puts_same_inside s k r r' : match s with Anywhere => True | Only p P => both (differ P p) r r' end -> puts_same_but (inside (str_node k) s) [(KStr k, r)] [(KStr k, r')].
  Proof.
    destruct s as [|p P]; intros H.
    - cbn [inside]. apply (puts_same_entry k); intros e [<-|[]]; reflexivity.
    - cbn [inside puts_same_but]. exists (KStr k). split; [reflexivity|]. split; [intros s E; injection E as ->; reflexivity|].
      constructor; [|constructor]. split; [reflexivity|]. right. split; [reflexivity|exact H].
  Qed.


  Lemma out_same_but s l l' : puts_same_but s l l' ->
    match s with Anywhere => True | Only p P => both (differ P p) (out_to_yaml (puts_all l [])) (out_to_yaml (puts_all l' [])) end.
  Proof.
    destruct s as [|[|k p] P]; cbn [puts_same_but]; [auto| |].
    - intros [Q [C [W H]]]. apply (map_here key_node (fun r => r) Q P); [exact W|reflexivity|]. cbn [ents]. apply puts_others; [exact C|exact H|constructor].
    - intros [K [E [_ H]]]. apply (map_in key_node (fun r => r) K k P p); [exact E|reflexivity|]. cbn [ents]. apply puts_alike; [exact H|constructor].
  Qed.

  (** ** Definitions *)

  Lemma short_or_full_ok o n : short_or_full o = Ok n ->
    exists l, Forall2 wrote o l /\ ((l = [(type_key, n)] /\ is_short o = true) \/ (n = Map TMap l /\ is_short o = false)).
  Proof.
    unfold short_or_full. destruct (is_short o) eqn:S.
    - pose proof S as S0. unfold is_short in S. apply andb_true_iff in S as [S1 S2]. apply Nat.eqb_eq in S1. destruct o as [|[k r] [|e o]]; try discriminate.
      cbn [shas existsb fst] in S2. rewrite orb_false_r in S2. assert (k = KStr "type") as ->.
      { symmetry. apply (closed_str "type" k (KStr "type") S2). reflexivity. }
      cbn. intros ->. exists [(type_key, n)]. split; [constructor; [split; reflexivity|constructor]|]. left. split; [reflexivity|exact S0].
    - intros H. apply out_to_yaml_ok in H as [l [-> H]]. exists l. split; [exact H|]. right. split; reflexivity.
  Qed.

  Lemma full_not_type o l : Forall2 wrote o l -> is_short o = false -> forall v, l <> [(type_key, v)].
  Proof.
    intros H S v ->. inversion H as [|e p o1 l1 [K _] H1 X Y]; subst. inversion H1; subst. destruct e as [k r]; cbn in K.
    destruct k as [|[|]|s|z|f|u]; cbn in K; try discriminate.
    - injection K as ->. cbn in S. discriminate.
    - injection K as E _. exact (tame f E).
  Qed.

  Lemma alike_short K R o o' : Forall2 (alike K R) o o' -> is_short o = is_short o'.
  Proof.
    intros H. unfold is_short. f_equal.
    - f_equal. induction H; cbn; congruence.
    - unfold shas. induction H as [|e e' o o' [E _] H IH]; [reflexivity|]. cbn [existsb]. rewrite E, IH. reflexivity.
  Qed.

  Definition keeps_type (s : spot) : Prop :=
    match s with Anywhere => True | Only [] P => ~ P type_key | Only (k :: _) _ => k <> type_key end.

  Lemma def_same_but s l l' : keeps_type s -> puts_same_but s l l' ->
    match s with Anywhere => True | Only p P => both (differ P p) (short_or_full (puts_all l [])) (short_or_full (puts_all l' [])) end.
  Proof.
    destruct s as [|[|k p] P]; cbn [puts_same_but keeps_type]; [auto| |].
    - intros N [Q [C [W H]]] n n' E E'. apply short_or_full_ok in E as [w [Hw E]]. apply short_or_full_ok in E' as [w' [Hw' E']].
      pose proof (puts_others Q l l' C H [] [] (others_nil _)) as O.
      pose proof (wr_others key_node (fun r => r) Q P _ _ W O _ _ Hw Hw') as D.
      destruct E as [[-> _]|[-> S]], E' as [[-> _]|[-> S']].
      + inversion D as [|e a b D1 X Y|e a b Pe D1 X Y|e a b Pe D1 X Y]; subst; cbn in *; try contradiction. apply differ_not.
      + apply differ_longer; [assumption|exact (full_not_type _ _ Hw' S')|assumption].
      + apply differ_shorter; [assumption|exact (full_not_type _ _ Hw S)|assumption].
      + apply differ_here. exact D.
    - intros N [K [Hk [U H]]] n n' E E'. pose proof (puts_alike K _ l l' H [] [] (Forall2_nil _)) as O.
      apply short_or_full_ok in E as [w [Hw E]]. apply short_or_full_ok in E' as [w' [Hw' E']].
      pose proof (wr_alike key_node (fun r => r) K k (differ P p) _ _ Hk O _ _ Hw Hw') as D.
      assert (S : is_short (puts_all l []) = is_short (puts_all l' [])) by (exact (alike_short _ _ _ _ O)).
      destruct E as [[-> E]|[-> E]], E' as [[-> E']|[-> E']].
      + inversion D as [|e e' a b [_ [He|[He _]]] _ X Y]; subst; cbn in *; [subst; apply differ_not|congruence].
      + congruence.
      + congruence.
      + apply differ_in. exact D.
  Qed.

  (** What an object is saved as; annotations, extra facets and resources are entries of something else. *)
  Definition node_of (t : thing) : option (res node) :=
    match t with
    | ThApi a => Some (api_marshal a)
    | ThLib l => Some (lib_marshal l)
    | ThDef d => Some (to_yaml d)
    | ThEx e => Some (ex_to_yaml e)
    | ThXml x => Some (xml_node x)
    | ThDoc d => Some (doc_node d)
    | ThDocs l => Some (docs_node l)
    | ThDefs m => Some (types_to_yaml to_yaml m)
    | ThFacets m => Some (facets_to_yaml to_yaml m)
    | ThExs m => Some (examples_to_yaml m)
    | ThUntyped m => Some (untyped_to_yaml m)
    | ThStrings m => Some (string_map_node m)
    | ThAnns _ | ThExtra _ => None
    end.
  Definition both_same (s : spot) (r r' : res node) : Prop := match s with Anywhere => True | Only p P => both (differ P p) r r' end.
  Definition good (s : spot) (t t' : thing) : Prop :=
    match node_of t, node_of t' with Some r, Some r' => both_same s r r' | _, _ => True end.

  Lemma flat_same {A} (g g' : A -> outm) f order s : NoDup order -> In f order -> (forall x, x <> f -> g x = g' x) -> puts_same_but s (g f) (g' f) ->
    puts_same_but s (flat_map g order) (flat_map g' order).
  Proof.
    intros N I E H. apply in_split in I as [l1 [l2 ->]]. rewrite !flat_map_app. cbn [flat_map].
    assert (X : forall l, ~ In f l -> flat_map g l = flat_map g' l).
    { clear - E. induction l as [|x l IH]; intros I; [reflexivity|]. cbn [flat_map]. rewrite IH, E; [reflexivity| |].
      - intros ->. apply I. left. reflexivity.
      - intros J. apply I. right. exact J. }
    apply NoDup_remove_2 in N. rewrite (X l1), (X l2); [apply puts_same_app; exact H| |]; intros J; apply N; apply in_or_app; auto.
  Qed.

  Lemma api_field_same f s a a' : (forall g, g <> f -> api_seg a g = api_seg a' g) -> puts_same_but s (api_seg a f) (api_seg a' f) -> good s (ThApi a) (ThApi a').
  Proof.
    intros E H. unfold good, node_of, both_same, api_marshal. rewrite !api_out_segs. apply out_same_but.
    apply (flat_same (api_seg a) (api_seg a') f); [|destruct f; cbn; tauto|exact E|exact H].
    repeat (constructor; [cbn; intuition discriminate|]). constructor.
  Qed.
  Lemma lib_field_same f s a a' : (forall g, g <> f -> lib_seg a g = lib_seg a' g) -> puts_same_but s (lib_seg a f) (lib_seg a' f) -> good s (ThLib a) (ThLib a').
  Proof.
    intros E H. unfold good, node_of, both_same, lib_marshal. rewrite !lib_out_segs. apply out_same_but.
    apply (flat_same (lib_seg a) (lib_seg a') f); [|destruct f; cbn; tauto|exact E|exact H].
    repeat (constructor; [cbn; intuition discriminate|]). constructor.
  Qed.

  Lemma all_seg_names {V} (vn : V -> res node) (es es' : list (string * V)) :
    puts_same_but (names_entries (map fst es ++ map fst es')) (all_seg KStr vn es) (all_seg KStr vn es').
  Proof.
    exists (fun k => exists s, k = KStr s /\ In s (map fst es ++ map fst es')). split.
    { intros a b E [s [-> H]]. exists s. split; [|exact H]. symmetry. exact (closed_str s a (KStr s) E eq_refl). }
    split.
    { intros k n [s [-> H]] E. cbn in E. injection E as <-. exists s. split; [reflexivity|exact H]. }
    apply others_all; intros k H; unfold all_seg in H; rewrite map_map in H; cbn in H; apply in_map_iff in H as [e [<- H]]; exists (fst e); (split; [reflexivity|]);
      apply in_or_app; [left|right]; apply in_map; exact H.
  Qed.
  Lemma all_seg_keys (es es' : list (gkey * gval)) :
    puts_same_but (keys_entries (map fst es ++ map fst es')) (all_seg (fun k => k) to_node es) (all_seg (fun k => k) to_node es').
  Proof.
    exists (fun k => exists k', same_key k k' /\ In k' (map fst es ++ map fst es')). split.
    { intros a b E [k' [S H]]. exists k'. split; [|exact H]. right. destruct S as [->|S]; [exact E|exact (gkey_eqb_trans _ _ _ E S)]. }
    split.
    { intros k n [k' [S H]] E. exists k, k'. auto. }
    apply others_all; intros k H; unfold all_seg in H; rewrite map_map in H; cbn in H; exists k; (split; [left; reflexivity|]);
      apply in_or_app; [left|right]; exact H.
  Qed.

  Ltac entries := apply puts_same_entry; intros ? H; first [exact (opt_seg_key _ _ _ H) | exact (if_seg_key _ _ _ _ H) | destruct H as [<-|[]]; reflexivity | destruct H].
  Ltac api_at f := apply (api_field_same f); [intros g N; destruct g; try reflexivity; congruence|].
  Ltac lib_at f := apply (lib_field_same f); [intros g N; destruct g; try reflexivity; congruence|].

  Lemma api_call op a : good (api_spot op a) (ThApi a) (ThApi (api_apply op a)).
  Proof.
    destruct op; cbn [api_spot api_apply].
    - api_at ATitle. entries.
    - api_at ADescription. entries.
    - api_at ADescription. entries.
    - api_at AVersion. entries.
    - api_at AVersion. entries.
    - api_at ABaseURI. entries.
    - api_at ABaseURI. entries.
    - api_at AProtocols. entries.
    - api_at AProtocols. entries.
    - api_at AMediaType. entries.
    - api_at AMediaType. entries.
    - api_at ADocumentation. entries.
    - api_at ADocumentation. entries.
    - api_at ATypes. entries.
    - api_at ATypes. entries.
    - api_at ATypes. entries.
    - api_at ATypes. entries.
    - api_at ATraits. entries.
    - api_at ATraits. entries.
    - api_at AResourceTypes. entries.
    - api_at AResourceTypes. entries.
    - api_at AAnnotationTypes. entries.
    - api_at AAnnotationTypes. entries.
    - api_at AAnnotations. apply all_seg_names.
    - api_at AAnnotations. rewrite <- (app_nil_r (names _)). apply (all_seg_names untyped_to_yaml _ []).
    - api_at ASecuritySchemes. entries.
    - api_at ASecuritySchemes. entries.
    - api_at ASecuredBy. entries.
    - api_at ASecuredBy. entries.
    - api_at AUses. entries.
    - api_at AUses. entries.
  Qed.

  Lemma lib_call op a : good (lib_spot op a) (ThLib a) (ThLib (lib_apply op a)).
  Proof.
    destruct op; cbn [lib_spot lib_apply].
    - lib_at LAnnotations. apply all_seg_names.
    - lib_at LAnnotations. rewrite <- (app_nil_r (names _)). apply (all_seg_names untyped_to_yaml _ []).
    - lib_at LUses. entries.
    - lib_at LUses. entries.
    - lib_at LResourceTypes. entries.
    - lib_at LResourceTypes. entries.
    - lib_at LTraits. entries.
    - lib_at LTraits. entries.
    - lib_at LTypes. entries.
    - lib_at LTypes. entries.
    - lib_at LTypes. entries.
    - lib_at LTypes. entries.
    - lib_at LUsage. entries.
    - lib_at LUsage. entries.
  Qed.

  (** ** Setters of definitions *)

  Inductive efield : Type := EDefault | EDisplay | EDescr | EType | EExtra | ERequired | EAnns | EFacets | EXml | ESpec | EEnum | EExample | EExamples.
  Definition eorder : list efield := [EDefault; EDisplay; EDescr; EType; EExtra; ERequired; EAnns; EFacets; EXml; ESpec; EEnum; EExample; EExamples].
  Definition eseg (b : base) (x : ext) (f : amap string (amap string dtype)) (c : common) (s : spec dtype) (e : efield) : outm :=
    match e with
    | EDefault => opt_seg "default" (option_map to_node (c_def c))
    | EDisplay => opt_seg "displayName" (str_opt (x_display x))
    | EDescr => opt_seg "description" (str_opt (x_descr x))
    | EType => [(KStr "type", Ok (str_node (b_schema b)))]
    | EExtra => all_seg (fun k => k) to_node (ents (b_extra b))
    | ERequired => if_seg (negb (x_required x)) "required" (Ok (bool_node (x_required x)))
    | EAnns => all_seg KStr untyped_to_yaml (ents (x_anns x))
    | EFacets => if_seg (nonempty f) "facets" (facets_to_yaml to_yaml f)
    | EXml => opt_seg "xml" (option_map xml_node (x_xml x))
    | ESpec => spec_segs to_yaml s
    | EEnum => opt_seg "enum" (option_map (fun l => to_node (GList l)) (c_enum c))
    | EExample => opt_seg "example" (option_map ex_to_yaml (c_example c))
    | EExamples => if_seg (nonempty (c_examples c)) "examples" (examples_to_yaml (c_examples c))
    end.

  Lemma to_yaml_segs b x f c s : to_yaml (TExt b x f c s) = short_or_full (puts_all (flat_map (eseg b x f c s) eorder) []).
  Proof.
    change (to_yaml (TExt b x f c s)) with (short_or_full (full_marshal to_yaml b x f c s [])). f_equal.
    unfold full_marshal, ext_marshal, base_marshal. rewrite spec_marshal_segs. rewrite !oput_opt_puts, !oput_if_puts, !oput_all_puts, oput_puts.
    cbn [eorder flat_map]. rewrite !puts_all_app. reflexivity.
  Qed.

  Lemma def_field_same e k b x f c s b' x' f' c' s' : (forall g, g <> e -> eseg b x f c s g = eseg b' x' f' c' s' g) -> keeps_type k ->
    puts_same_but k (eseg b x f c s e) (eseg b' x' f' c' s' e) -> good k (ThDef (TExt b x f c s)) (ThDef (TExt b' x' f' c' s')).
  Proof.
    intros E N H. unfold good, node_of, both_same. rewrite !to_yaml_segs. apply def_same_but; [exact N|].
    apply (flat_same (eseg b x f c s) (eseg b' x' f' c' s') e); [|destruct e; cbn; tauto|exact E|exact H].
    repeat (constructor; [cbn; intuition discriminate|]). constructor.
  Qed.

  Lemma entry_refl k l : puts_same_but (entry k) l l.
  Proof. exists (eq (KStr k)). split; [apply closed_str|]. split; [intros a n <- E; cbn in E; congruence|]. apply others_refl. Qed.

  Definition spec_key (op : type_op) : option string :=
    match op with
    | TSetUniqueItems _ => Some "uniqueItems"
    | TSetMinItems _ => Some "minItems"
    | TSetMaxItems _ => Some "maxItems"
    | TSetItems _ | TUnsetItems => Some "items"
    | TSetFormat _ | TUnsetFormat => Some "format"
    | TSetFileTypes _ | TUnsetFileTypes => Some "fileTypes"
    | TSetMinLength _ => Some "minLength"
    | TSetMaxLength _ | TUnsetMaxLength => Some "maxLength"
    | TSetMinimumInt _ | TSetMinimumFloat _ | TUnsetMinimum => Some "minimum"
    | TSetMaximumInt _ | TSetMaximumFloat _ | TUnsetMaximum => Some "maximum"
    | TSetMultipleOf _ | TUnsetMultipleOf => Some "multipleOf"
    | TSetProperties _ | TUnsetProperties => Some "properties"
    | TSetMinProperties _ | TUnsetMinProperties => Some "minProperties"
    | TSetMaxProperties _ | TUnsetMaxProperties => Some "maxProperties"
    | TSetAdditionalProperties _ => Some "additionalProperties"
    | TSetDiscriminator _ | TUnsetDiscriminator => Some "discriminator"
    | TSetDiscriminatorValue _ | TUnsetDiscriminatorValue => Some "discriminatorValue"
    | TSetPattern _ | TUnsetPattern => Some "pattern"
    | _ => None
    end.

  Ltac seek := first [apply entry_refl | solve [entries] | apply puts_same_back; solve [seek] | apply puts_same_front; seek].

  Lemma spec_call op s k : spec_key op = Some k -> puts_same_but (entry k) (spec_segs to_yaml s) (spec_segs to_yaml (spec_apply op s)).
  Proof.
    intros E. destruct op; try discriminate E; injection E as <-; destruct s; cbn [spec_apply own_apply spec_segs]; seek.
  Qed.

  Lemma not_type k : k <> "type" -> keeps_type (entry k).
  Proof. intros N E. injection E as ->. congruence. Qed.


  Lemma names_keep l : has_type (map KStr l) = false -> keeps_type (names_entries l).
  Proof.
    intros H [k [E I]]. injection E as <-. assert (X : has_type (map KStr l) = true); [|congruence].
    unfold has_type. apply existsb_exists. exists (KStr "type"). split; [apply in_map; exact I|reflexivity].
  Qed.
  Lemma keys_keep l : has_type l = false -> keeps_type (keys_entries l).
  Proof.
    intros H [k [k' [E [S I]]]]. apply (key_node_str k "type" tame) in E. subst k. assert (X : has_type l = true); [|congruence].
    unfold has_type. apply existsb_exists. exists k'. split; [exact I|]. destruct S as [<-|S]; [reflexivity|exact S].
  Qed.

  (** SetType: the type has another text, everything else and the form are the same. *)
  Lemma set_type_good b x f c s t : good (entry "type") (ThDef (TExt b x f c s)) (ThDef (TExt (mkBase t (b_kind b) (b_extra b)) x f c s)).
  Proof.
    unfold good, node_of, both_same, entry. rewrite !to_yaml_segs. set (b' := mkBase t (b_kind b) (b_extra b)).
    assert (A : Forall2 (alike (KStr "type") (fun r r' => r = Ok (str_node (b_schema b)) /\ r' = Ok (str_node t))) (flat_map (eseg b x f c s) eorder) (flat_map (eseg b' x f c s) eorder)).
    { cbn [eorder flat_map]. repeat (apply Forall2_app; [first [apply alike_refl|constructor; [|constructor]; split; [reflexivity|right; split; [reflexivity|split; reflexivity]]]|]). constructor. }
    pose proof (puts_alike _ _ _ _ A [] [] (Forall2_nil _)) as O. clear A.
    set (o := puts_all (flat_map (eseg b x f c s) eorder) []) in *. set (o' := puts_all (flat_map (eseg b' x f c s) eorder) []) in *.
    pose proof (alike_short _ _ _ _ O) as S. intros n n' E E'.
    unfold short_or_full in E, E'. rewrite <- S in E'. destruct (is_short o) eqn:T.
    - unfold is_short in T. apply andb_true_iff in T as [T1 T2]. apply Nat.eqb_eq in T1.
      destruct O as [|[k r] [k' r'] w w' [X Y] W]; [discriminate|]. cbn in X. subst k'. destruct W as [|]; [|discriminate T1].
      cbn [shas existsb fst] in T2. rewrite orb_false_r in T2.
      assert (k = KStr "type") as -> by (symmetry; exact (closed_str "type" k (KStr "type") T2 eq_refl)). cbn in E, E'. subst r r'.
      destruct Y as [Y|[_ [Y Y']]]; cbn in *.
      + injection Y as ->. apply differ_not.
      + injection Y as ->. injection Y' as ->. apply differ_type. reflexivity.
    - apply out_to_yaml_ok in E as [l [-> Hl]]. apply out_to_yaml_ok in E' as [l' [-> Hl']]. apply differ_here.
      apply (wr_others key_node (fun r => r) (eq (KStr "type")) (eq (str_node "type")) o o'); [intros k n <- K; cbn in K; congruence| |exact Hl|exact Hl'].
      apply (alike_others _ (KStr "type") _ _ _ eq_refl O).
  Qed.

  Ltac def_at e := apply (def_field_same e); [intros g N; destruct g; try reflexivity; congruence| |].

  Lemma type_call op b x f c s : good (type_spot op b x) (ThDef (TExt b x f c s)) (ThDef (type_apply op (TExt b x f c s))).
  Proof.
    destruct (spec_key op) as [k|] eqn:E.
    - assert (S : type_spot op b x = entry k) by (destruct op; try discriminate E; injection E as <-; reflexivity). rewrite S.
      assert (T : type_apply op (TExt b x f c s) = TExt b x f c (spec_apply op s)) by (destruct op; try discriminate E; reflexivity). rewrite T.
      def_at ESpec; [apply not_type; intros ->; destruct op; discriminate E|]. exact (spec_call op s k E).
    - assert (S : spec_apply op s = s) by (destruct op; try discriminate E; destruct s; reflexivity).
      destruct op; try discriminate E; cbn [type_spot type_apply base_apply ext_apply facets_apply common_apply]; rewrite S.
      + exact (set_type_good b x f c s s0).
      + def_at EDefault; [apply not_type; discriminate|]. entries.
      + def_at EDefault; [apply not_type; discriminate|]. entries.
      + def_at EExample; [apply not_type; discriminate|]. entries.
      + def_at EExample; [apply not_type; discriminate|]. entries.
      + def_at EExamples; [apply not_type; discriminate|]. entries.
      + def_at EExamples; [apply not_type; discriminate|]. entries.
      + def_at EDisplay; [apply not_type; discriminate|]. entries.
      + def_at EDisplay; [apply not_type; discriminate|]. entries.
      + def_at EDescr; [apply not_type; discriminate|]. entries.
      + def_at EDescr; [apply not_type; discriminate|]. entries.
      + unfold unless_type. destruct (has_type _) eqn:T; [exact I|]. def_at EAnns; [apply names_keep; exact T|]. apply all_seg_names.
      + unfold unless_type. destruct (has_type _) eqn:T; [exact I|]. def_at EAnns; [apply names_keep; exact T|]. apply (all_seg_names untyped_to_yaml _ []).
      + def_at EFacets; [apply not_type; discriminate|]. entries.
      + def_at EFacets; [apply not_type; discriminate|]. entries.
      + def_at EXml; [apply not_type; discriminate|]. entries.
      + def_at EXml; [apply not_type; discriminate|]. entries.
      + unfold unless_type. destruct (has_type _) eqn:T; [exact I|]. def_at EExtra; [apply keys_keep; exact T|]. apply all_seg_keys.
      + unfold unless_type. destruct (has_type _) eqn:T; [exact I|]. def_at EExtra; [apply keys_keep; exact T|]. apply (all_seg_keys _ []).
      + def_at ERequired; [apply not_type; discriminate|]. entries.
      + def_at EEnum; [apply not_type; discriminate|]. entries.
      + def_at EEnum; [apply not_type; discriminate|]. entries.
  Qed.

  (** ** Methods of maps *)

  Lemma edit_order {K V} keq (o : op K V) m : (forall b, o <> OSerializeOrdered b) -> oord (map_edit keq o m) = oord m.
  Proof. intros N. unfold map_edit. cbn [oord]. destruct o; try reflexivity. exfalso. exact (N _ eq_refl). Qed.

  Lemma map_call {V} (vn : V -> res node) o m : both_same (map_spot o) (map_to_yaml skey_node vn m) (map_to_yaml skey_node vn (map_edit String.eqb o m)).
  Proof.
    assert (X : (forall b, o <> OSerializeOrdered b) -> both_same (op_entry o) (map_to_yaml skey_node vn m) (map_to_yaml skey_node vn (map_edit String.eqb o m))).
    { intros N. apply (map_here skey_node vn (fun k => op_key o = Some k)).
      - intros k n E Hn. rewrite E. injection Hn as <-. reflexivity.
      - apply edit_order. exact N.
      - apply op_others; [|auto]. intros a b E H. apply String.eqb_eq in E. subst. exact H. }
    unfold map_spot. destruct o; try (apply X; discriminate). exact I.
  Qed.

  Lemma others_map {K K' V V'} (P : K -> Prop) (Q : K' -> Prop) (f : K * V -> K' * V') l l' :
    (forall e, P (fst e) -> Q (fst (f e))) -> others P l l' -> others Q (map f l) (map f l').
  Proof.
    intros W H. induction H as [|e l l' H IH|e l l' Pe H IH|e l l' Pe H IH]; cbn [map].
    - constructor.
    - apply others_same. exact IH.
    - apply others_old; auto.
    - apply others_new; auto.
  Qed.

  Lemma names_call {V} (vn : V -> res node) o (m : amap string V) :
    puts_same_but (op_entry o) (all_seg KStr vn (ents m)) (all_seg KStr vn (ents (map_edit String.eqb o m))).
  Proof.
    exists (fun g => exists s, g = KStr s /\ op_key o = Some s). split.
    { intros a b E [s [-> H]]. exists s. split; [|exact H]. symmetry. exact (closed_str s a (KStr s) E eq_refl). }
    split.
    { intros k n [s [-> H]] E. rewrite H. injection E as <-. reflexivity. }
    unfold all_seg. apply (others_map (fun k => op_key o = Some k)); [intros e H; exists (fst e); auto|].
    apply op_others; [|auto]. intros a b E H. apply String.eqb_eq in E. subst. exact H.
  Qed.
  Lemma keys_call o (m : amap gkey gval) :
    puts_same_but (match op_key o with Some k => keys_entries [k] | None => nowhere end) (all_seg (fun k => k) to_node (ents m)) (all_seg (fun k => k) to_node (ents (map_edit gkey_eqb o m))).
  Proof.
    destruct (op_key o) as [k0|] eqn:O.
    - exists (fun g => same_key g k0).
      assert (C : closed (fun g => same_key g k0)).
      { intros a b E [->|H]; right; [exact E|exact (gkey_eqb_trans _ _ _ E H)]. }
      split; [exact C|]. split.
      { intros k n H E. exists k, k0. split; [exact E|]. split; [exact H|]. left. reflexivity. }
      unfold all_seg. apply (others_map (fun g => same_key g k0)); [auto|]. apply op_others; [exact C|]. intros k E. left. congruence.
    - exists (fun _ => False). split; [intros a b E []|]. split; [intros k n []|].
      unfold all_seg. apply (others_map (fun g => False)); [auto|]. apply op_others; [intros a b E []|]. intros k E. congruence.
  Qed.

  Lemma good_call a t : good (call_spot a t) t (act_on a t).
  Proof.
    destruct t as [d|l|[b|b x fs c s]|e|x|d|l|m|m|m|m|m|m|m]; destruct a; try exact I.
    - apply api_call.
    - apply lib_call.
    - apply type_call.
    - apply map_call.
    - apply map_call.
    - apply map_call.
    - apply map_call.
    - apply map_call.
  Qed.

  (** ** What is reached through a map *)

  Lemma replace_others {V} k (v : V) l : others (eq k) l (sreplace String.eqb k v l).
  Proof.
    unfold sreplace. induction l as [|e l IH]; [constructor|]. cbn [map]. destruct (String.eqb (fst e) k) eqn:E; [|apply others_same; exact IH].
    apply String.eqb_eq in E. apply others_old; [auto|]. apply others_new; [cbn; auto|exact IH].
  Qed.
  Lemma replace_alike {V} k (v v' : V) (R : V -> V -> Prop) l : NoDup (map fst l) -> sget String.eqb k l = Some v -> R v v' -> Forall2 (alike k R) l (sreplace String.eqb k v' l).
  Proof.
    unfold sget, sreplace. induction l as [|e l IH]; intros N G H; [constructor|]. cbn [map find fst] in *. inversion N as [|x y N1 N2]; subst.
    destruct (String.eqb (fst e) k) eqn:E.
    - cbn in G. injection G as G. apply String.eqb_eq in E. constructor; [split; [reflexivity|right; split; [exact E|cbn; rewrite G; exact H]]|].
      replace (map _ l) with l; [apply alike_refl|]. symmetry. rewrite <- (map_id l) at 2. apply map_ext_in. intros e' I.
      destruct (String.eqb (fst e') k) eqn:E'; [|reflexivity]. exfalso. apply N1. apply String.eqb_eq in E'. rewrite E, <- E'. apply in_map. exact I.
    - constructor; [split; [reflexivity|left; reflexivity]|exact (IH N2 G H)].
  Qed.

  Lemma replace_in {V} (vn : V -> res node) s k (v v' : V) m : NoDup (map fst (ents m)) -> sget String.eqb k (ents m) = Some v -> both_same s (vn v) (vn v') ->
    both_same (inside (str_node k) s) (map_to_yaml skey_node vn m) (map_to_yaml skey_node vn (replaced k v' m)).
  Proof.
    intros N G H. destruct s as [|p P]; cbn [inside both_same].
    - apply (map_here skey_node vn (eq k)); [intros k' n <- E; injection E as <-; reflexivity|reflexivity|]. apply replace_others.
    - apply (map_in skey_node vn k); [reflexivity|reflexivity|]. cbn [replaced ents]. apply replace_alike with (v := v); assumption.
  Qed.
  Lemma replace_names {V} (vn : V -> res node) s k (v v' : V) m : NoDup (map fst (ents m)) -> sget String.eqb k (ents m) = Some v -> both_same s (vn v) (vn v') ->
    puts_same_but (inside (str_node k) s) (all_seg KStr vn (ents m)) (all_seg KStr vn (ents (replaced k v' m))).
  Proof.
    intros N G H. unfold all_seg. destruct s as [|p P]; cbn [inside puts_same_but].
    - exists (eq (KStr k)). split; [apply closed_str|]. split; [intros k' n <- E; cbn in E; congruence|].
      apply (others_map (eq k)); [intros e <-; reflexivity|]. apply replace_others.
    - exists (KStr k). split; [reflexivity|]. split; [intros s E; injection E as ->; reflexivity|].
      pose proof (replace_alike k v v' (fun a b => both (differ P p) (vn a) (vn b)) (ents m) N G H) as A. cbn [replaced ents]. clear N G.
      induction A as [|e e' l l' [E [X|[X Y]]] A IH]; cbn [map]; [constructor| |]; (constructor; [|exact IH]); (split; cbn; [congruence|]).
      + left. congruence.
      + right. split; [congruence|exact Y].
  Qed.

  (** ** What is reached through annotations, extra facets and resources *)

  Lemma puts_nowhere l : puts_same_but nowhere l l.
  Proof. exists (fun _ => False). split; [intros a b E []|]. split; [intros k n []|]. apply others_refl. Qed.

  Lemma good_nowhere t : good nowhere t t.
  Proof. unfold good. destruct (node_of t); [|exact I]. intros n n' E E'. replace n' with n by congruence. apply differ_not. Qed.

  Lemma untyped_good ns a m : good (place ns a (ThUntyped m)) (ThUntyped m) (edit_at ns a (ThUntyped m)).
  Proof. destruct ns as [|n ns]; [apply good_call|]. exact (good_nowhere (ThUntyped m)). Qed.

  Lemma keyed_get {A} (th : A -> thing) k m q : sget name_eqb (NKey k) (keyed th m) = Some (Some q) -> exists d, sget String.eqb k (ents m) = Some d /\ q = th d.
  Proof.
    unfold keyed. rewrite (named_get th k (ents m)). destruct (sget String.eqb k (ents m)) as [d|]; [|discriminate]. intros E. injection E as <-. exists d. auto.
  Qed.

  Lemma sort_untyped t : sort t = 11%nat -> exists m, t = ThUntyped m.
  Proof. destruct t; try discriminate. eauto. Qed.

  Lemma once_names {A} (th : A -> thing) t m : parts t = keyed th m -> Objects.once t -> NoDup (map fst (ents m)).
  Proof.
    intros E H. specialize (H [] t eq_refl). rewrite E in H. unfold keyed in H. rewrite map_map in H. cbn in H.
    rewrite <- (map_map fst NKey) in H. exact (NoDup_map_inv _ _ H).
  Qed.

  Lemma anns_puts ns a m m' : Objects.once (ThAnns m) -> edit_at ns a (ThAnns m) = ThAnns m' ->
    puts_same_but (place ns a (ThAnns m)) (all_seg KStr untyped_to_yaml (ents m)) (all_seg KStr untyped_to_yaml (ents m')).
  Proof.
    intros N E. destruct ns as [|n ns]; cbn [place edit_at] in *.
    - destruct a; try exact I. injection E as <-. apply names_call.
    - destruct (get_part n (ThAnns m)) as [q|] eqn:G; [|injection E as <-; apply puts_nowhere].
      unfold get_part in G. cbn [parts] in G. destruct (sget name_eqb n (keyed ThUntyped m)) as [o|] eqn:G1; [|discriminate]. subst o.
      destruct (keyed_other _ _ _ _ G1) as [k ->]. destruct (keyed_get _ _ _ _ G1) as [u [G2 ->]].
      destruct (sort_untyped (edit_at ns a (ThUntyped u)) (edit_sort ns a (ThUntyped u))) as [u' U]. rewrite U in E. injection E as <-.
      apply (replace_names untyped_to_yaml _ k u u'); [exact (once_names ThUntyped (ThAnns m) m eq_refl N)|exact G2|].
      pose proof (untyped_good ns a u) as X. rewrite U in X. exact X.
  Qed.
  Lemma extra_puts ns a m m' : edit_at ns a (ThExtra m) = ThExtra m' ->
    puts_same_but (place ns a (ThExtra m)) (all_seg (fun k => k) to_node (ents m)) (all_seg (fun k => k) to_node (ents m')).
  Proof.
    intros E. destruct ns as [|n ns]; cbn [place edit_at] in *.
    - destruct a; try exact I. injection E as <-. apply keys_call.
    - injection E as <-. apply puts_nowhere.
  Qed.
  Lemma resources_puts ns a m m' : edit_at ns a (ThUntyped m) = ThUntyped m' ->
    puts_same_but (match a, ns with AcUntyped (OSerializeOrdered _), [] => nowhere | _, _ => place ns a (ThUntyped m) end)
      (all_seg KStr to_node (ents m)) (all_seg KStr to_node (ents m')).
  Proof.
    intros E. destruct ns as [|n ns]; cbn [place edit_at] in *.
    - destruct a; try exact I. injection E as <-. destruct o; try apply (names_call to_node). apply puts_nowhere.
    - assert (X : puts_same_but nowhere (all_seg KStr to_node (ents m)) (all_seg KStr to_node (ents m'))) by (injection E as <-; apply puts_nowhere).
      destruct a; try exact X. destruct o; exact X.
  Qed.

  (** ** What is reached through a field *)

  Lemma put_empty n q t : empty_map (put_part n q t) = empty_map t.
  Proof.
    assert (X : forall A k (a : A) m, nonempty (replaced k a m) = nonempty m).
    { intros A k a m. unfold nonempty, replaced, sreplace. cbn [ents]. destruct (ents m); reflexivity. }
    destruct t as [p|l|[b|b x fs c s]|e|x|d|l|m|m|m|m|m|m|m]; cbn [put_part]; destruct n as [f|k|i]; try reflexivity; try (destruct f; try reflexivity); destruct q; try reflexivity;
      try (destruct s; reflexivity); cbn [empty_map]; f_equal; apply X.
  Qed.

  Lemma edit_empty ns a q : (match ns with [] => empty_map q || empty_map (act_on a q) | _ => false end) = false -> empty_map (edit_at ns a q) = empty_map q.
  Proof.
    destruct ns as [|n ns]; cbn [edit_at].
    - intros H. apply orb_false_iff in H as [-> ->]. reflexivity.
    - intros _. destruct (get_part n q); [apply put_empty|reflexivity].
  Qed.

  Lemma puts_nil k s : puts_same_but (inside (str_node k) s) [] [].
  Proof.
    destruct s as [|p P]; cbn [inside]; [exact (entry_refl k [])|]. exists (KStr k). split; [reflexivity|]. split; [intros s E; injection E as ->; reflexivity|constructor].
  Qed.

  (** a map *)
  Lemma field_map (c : bool) k s e e' r r' : (c = false -> e' = e) -> both_same s r r' ->
    puts_same_but (if c then entry k else inside (str_node k) s) (if_seg e k r) (if_seg e' k r').
  Proof.
    intros C H. destruct c; [apply puts_same_entry; intros ? X; exact (if_seg_key _ _ _ _ X)|]. rewrite (C eq_refl). unfold if_seg. destruct e; [|apply puts_nil].
    apply puts_same_inside. exact H.
  Qed.
  (** an object *)
  Lemma field_obj k s r r' : both_same s r r' -> puts_same_but (inside (str_node k) s) (opt_seg k (Some r)) (opt_seg k (Some r')).
  Proof. apply puts_same_inside. Qed.

  Lemma inside_keeps k s : k <> "type" -> keeps_type (inside (str_node k) s).
  Proof. intros N. destruct s as [|p P]; cbn [inside keeps_type]; intros E; injection E as ->; congruence. Qed.

  Lemma anns_keep ns a m : called_type a ns = false -> keeps_type (place ns a (ThAnns m)).
  Proof.
    destruct ns as [|n ns]; cbn [place called_type].
    - destruct a; try (intros _; exact I). cbn [call_spot op_entry keeps_type]. destruct (op_key o) as [k|]; [|intros _ []].
      intros E X. injection X as X. subst k. discriminate E.
    - intros E. destruct (get_part n (ThAnns m)) as [q|]; [|exact (fun x => x)]. destruct n as [f|k|i]; try exact I.
      apply inside_keeps. intros ->. discriminate E.
  Qed.
  Lemma extra_keep ns a m : called_type a ns = false -> keeps_type (place ns a (ThExtra m)).
  Proof.
    destruct ns as [|n ns]; cbn [place called_type].
    - destruct a; try (intros _; exact I). cbn [call_spot]. destruct (op_key o) as [k|]; [|intros _ X; exact X].
      intros E. apply keys_keep. unfold has_type. cbn [existsb]. rewrite gkey_eqb_sym, E. reflexivity.
    - intros _ X. exact X.
  Qed.

  Lemma base_same s b m' : keeps_type s -> puts_same_but s (all_seg (fun k => k) to_node (ents (b_extra b))) (all_seg (fun k => k) to_node (ents m')) ->
    good s (ThDef (TBase b)) (ThDef (TBase (mkBase (b_schema b) (b_kind b) m'))).
  Proof.
    intros K H. unfold good, node_of, both_same.
    assert (X : forall b, to_yaml (TBase b) = short_or_full (puts_all (segs to_yaml (TBase b)) [])).
    { intros b0. change (to_yaml (TBase b0)) with (short_or_full (type_marshal to_yaml (TBase b0) [])). rewrite type_marshal_segs; [reflexivity|]. right. eauto. }
    rewrite !X. apply def_same_but; [exact K|]. unfold segs. cbn [head_segs required_seg ann_segs tail_segs d_base app]. rewrite !app_nil_r.
    apply (puts_same_front s [(KStr "type", Ok (type_node b))]). exact H.
  Qed.

  Lemma once_part n q t : get_part n t = Some q -> Objects.once t -> Objects.once q.
  Proof. intros G H ns r E. apply (H (n :: ns) r). cbn [follow]. rewrite G. exact E. Qed.

  Lemma negb_eq a b : negb a = negb b -> a = b.
  Proof. destruct a, b; auto. Qed.

  Ltac sorted q' := match goal with |- context [edit_at ?ns ?a ?q] =>
      pose proof (edit_sort ns a q) as S; destruct (edit_at ns a q) as [?|?|q'|q'|q'|q'|q'|q'|q'|q'|q'|q'|q'|q'] eqn:Q; try discriminate S; clear S end.
  Ltac by_map IH O := apply field_map;
      [let X := fresh in intros X; apply negb_eq; apply edit_empty in X; match goal with Q : edit_at _ _ _ = _ |- _ => rewrite Q in X end; exact X
      |match goal with Q : edit_at _ ?a ?q = _ |- _ => let Y := fresh in pose proof (IH a q O) as Y; rewrite Q in Y; exact Y end].
  Ltac by_obj IH O := apply field_obj; match goal with Q : edit_at _ ?a ?q = _ |- _ => let Y := fresh in pose proof (IH a q O) as Y; rewrite Q in Y; exact Y end.

  Theorem edit_same_but ns : forall a t, Objects.once t -> good (place ns a t) t (edit_at ns a t).
  Proof.
    induction ns as [|n ns IH]; intros a t O; [apply good_call|].
    destruct (get_part n t) as [q|] eqn:G; [|cbn [place edit_at]; rewrite G; apply good_nowhere].
    pose proof (once_part n q t G O) as Oq.
    destruct t as [d|l|d|e|x|d|l|m|m|m|m|m|m|m].
    - (* ThApi *)
      destruct n as [f|k|i]; [|discriminate G|discriminate G].
      destruct f; try discriminate G; cbn [place edit_at]; rewrite G; cbn [field_key].
      all: try (pose proof G as G0; injection G0 as <-).
      + sorted m'. api_at ATypes. by_map IH Oq.
      + sorted m'. api_at ATraits. by_map IH Oq.
      + sorted m'. api_at AResourceTypes. by_map IH Oq.
      + sorted m'. api_at AAnnotationTypes. by_map IH Oq.
      + sorted m'. api_at AAnnotations. exact (anns_puts ns a _ _ Oq Q).
      + sorted m'. api_at ASecuritySchemes. by_map IH Oq.
      + sorted m'. api_at AUses. by_map IH Oq.
      + sorted m'. api_at AResources. exact (resources_puts ns a _ _ Q).
      + sorted m'. api_at ABaseURIParameters. by_map IH Oq.
      + sorted m'. api_at AExtra. exact (extra_puts ns a _ _ Q).
      + cbn [parts] in G. unfold get_part in G. cbn in G. destruct (a_documentation d) as [ds|] eqn:D; [|discriminate G]. injection G as <-.
        replace (match ns with [] => _ | _ :: _ => false end) with false by (destruct ns; [|reflexivity]; destruct a; reflexivity).
        sorted m'. api_at ADocumentation. cbn [api_seg a_documentation a_set_documentation put_part]. rewrite D. by_obj IH Oq.
    - (* ThLib *)
      destruct n as [f|k|i]; [|discriminate G|discriminate G].
      destruct f; try discriminate G; cbn [place edit_at]; rewrite G; cbn [field_key].
      all: try (pose proof G as G0; injection G0 as <-).
      + sorted m'. lib_at LTypes. by_map IH Oq.
      + sorted m'. lib_at LTraits. by_map IH Oq.
      + sorted m'. lib_at LResourceTypes. by_map IH Oq.
      + sorted m'. lib_at LAnnotationTypes. by_map IH Oq.
      + sorted m'. lib_at LAnnotations. exact (anns_puts ns a _ _ Oq Q).
      + sorted m'. lib_at LSecuritySchemes. by_map IH Oq.
      + sorted m'. lib_at LUses. by_map IH Oq.
      + sorted m'. lib_at LExtra. exact (extra_puts ns a _ _ Q).
    - (* ThDef *)
      destruct n as [f|k|i]; [| |]; try (destruct d as [b|b x fs c [| | | | | | |]]; discriminate G).
      destruct d as [b|b x fs c s].
      + destruct f; try discriminate G; cbn [place edit_at]; rewrite G; cbn [field_key]. pose proof G as G0; injection G0 as <-. sorted m'.
        destruct (called_type a ns) eqn:T; [exact I|]. apply base_same; [apply extra_keep; exact T|]. exact (extra_puts ns a _ _ Q).
      + destruct f; try (destruct s; discriminate G); cbn [place edit_at]; rewrite G; cbn [field_key].
        * injection G as <-. sorted m'. destruct (called_type a ns) eqn:T; [exact I|]. def_at EAnns; [apply anns_keep; exact T|]. exact (anns_puts ns a _ _ Oq Q).
        * injection G as <-. sorted m'. destruct (called_type a ns) eqn:T; [exact I|]. def_at EExtra; [apply extra_keep; exact T|]. exact (extra_puts ns a _ _ Q).
        * unfold get_part in G. cbn in G. destruct (x_xml x) as [y|] eqn:D; [|discriminate G]. injection G as <-.
          replace (match ns with [] => _ | _ :: _ => false end) with false by (destruct ns; [|reflexivity]; destruct a; reflexivity).
          sorted m'. def_at EXml; [apply inside_keeps; discriminate|]. cbn [eseg x_xml]. rewrite D. by_obj IH Oq.
        * injection G as <-. sorted m'. def_at EFacets; [|by_map IH Oq].
          match goal with |- context [if ?c then _ else _] => destruct c end; [apply not_type|apply inside_keeps]; discriminate.
        * unfold get_part in G. cbn in G. destruct (c_example c) as [y|] eqn:D; [|discriminate G]. injection G as <-.
          replace (match ns with [] => _ | _ :: _ => false end) with false by (destruct ns; [|reflexivity]; destruct a; reflexivity).
          sorted m'. def_at EExample; [apply inside_keeps; discriminate|]. cbn [eseg c_example]. rewrite D. by_obj IH Oq.
        * injection G as <-. sorted m'. def_at EExamples; [|by_map IH Oq].
          match goal with |- context [if ?c then _ else _] => destruct c end; [apply not_type|apply inside_keeps]; discriminate.
        * destruct s as [|u mn mx it|fm|ft mn mx|fm mn mx mu|fm mn mx mu|ps mn mx ad ds dv|pt mn mx]; try discriminate G.
          unfold get_part in G. cbn in G. destruct it as [y|]; [|discriminate G]. injection G as <-.
          replace (match ns with [] => _ | _ :: _ => false end) with false by (destruct ns; [|reflexivity]; destruct a; reflexivity).
          sorted m'. def_at ESpec; [apply inside_keeps; discriminate|]. cbn [eseg spec_segs]. do 3 apply puts_same_front. by_obj IH Oq.
        * destruct s as [|u mn mx it|fm|ft mn mx|fm mn mx mu|fm mn mx mu|ps mn mx ad ds dv|pt mn mx]; try discriminate G.
          injection G as <-. sorted m'. def_at ESpec; [|cbn [eseg spec_segs]; do 5 apply puts_same_front; by_map IH Oq].
          match goal with |- context [if ?c then _ else _] => destruct c end; [apply not_type|apply inside_keeps]; discriminate.
    - cbn [place]. rewrite G. unfold good. destruct (node_of _); [|exact I]. destruct (node_of _); exact I.
    - discriminate G.
    - cbn [place]. rewrite G. unfold good. destruct (node_of _); [|exact I]. destruct (node_of _); exact I.
    - cbn [place]. rewrite G. unfold good. destruct (node_of _); [|exact I]. destruct (node_of _); exact I.
    - pose proof G as G0. unfold get_part in G0. cbn [parts] in G0. destruct (sget name_eqb n (keyed ThDef m)) as [o|] eqn:G1; [|discriminate]. subst o.
      destruct (keyed_other _ _ _ _ G1) as [k ->]. destruct (keyed_get _ _ _ _ G1) as [v [G2 ->]]. cbn [place edit_at]. rewrite G. sorted v'.
      apply (replace_in to_yaml _ k v v'); [exact (once_names ThDef (ThDefs m) m eq_refl O)|exact G2|].
      pose proof (IH a (ThDef v) Oq) as Y. rewrite Q in Y. exact Y.
    - pose proof G as G0. unfold get_part in G0. cbn [parts] in G0. destruct (sget name_eqb n (keyed ThDefs m)) as [o|] eqn:G1; [|discriminate]. subst o.
      destruct (keyed_other _ _ _ _ G1) as [k ->]. destruct (keyed_get _ _ _ _ G1) as [v [G2 ->]]. cbn [place edit_at]. rewrite G. sorted v'.
      apply (replace_in (types_to_yaml to_yaml) _ k v v'); [exact (once_names ThDefs (ThFacets m) m eq_refl O)|exact G2|].
      pose proof (IH a (ThDefs v) Oq) as Y. rewrite Q in Y. exact Y.
    - pose proof G as G0. unfold get_part in G0. cbn [parts] in G0. destruct (sget name_eqb n (keyed ThEx m)) as [o|] eqn:G1; [|discriminate]. subst o.
      destruct (keyed_other _ _ _ _ G1) as [k ->]. destruct (keyed_get _ _ _ _ G1) as [v [G2 ->]]. cbn [place edit_at]. rewrite G. sorted v'.
      apply (replace_in ex_to_yaml _ k v v'); [exact (once_names ThEx (ThExs m) m eq_refl O)|exact G2|].
      pose proof (IH a (ThEx v) Oq) as Y. rewrite Q in Y. exact Y.
    - exact I.
    - discriminate G.
    - discriminate G.
    - discriminate G.
  Qed.
End Written.
