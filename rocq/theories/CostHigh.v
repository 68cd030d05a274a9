(** Proofs of C97: a document that repeats its keys. *)
From Coq Require Import SpecFloat FinFun.
From Verif Require Import Base Num OMap OMapSpec Keys Yaml Values Assign Formats Meta Out Xml Example DataType Doc Api Library Sizes SizeProofs TypeFacts Cost CostProofs.
Local Open Scope nat_scope.

Section Fold.
  Context {A S K : Type}.
  Variable f : S -> A -> res S.
  Variable cost : S -> A -> nat.
  Variable keys : S -> list K.
  Variable label : A -> K.
  Variable good : A -> Prop.
  Hypothesis step : forall s a, good a -> exists s', f s a = Ok s' /\ incl (label a :: keys s) (keys s').
  Hypothesis high : forall s a, good a -> In (label a) (keys s) -> List.length (keys s) <= cost s a.

  Lemma first_time p q : (forall a, In a p -> good a) -> forall s, exists s', fold_res f s p = Ok s' /\ incl (map label p ++ keys s) (keys s') /\ fold_cost f cost s' q <= fold_cost f cost s (p ++ q).
  Proof.
    induction p as [|a p IH]; intros H s; [exists s; split; [reflexivity|split; [intros x I; exact I|reflexivity]]|].
    destruct (step s a (H a (or_introl eq_refl))) as [s1 [E1 I1]]. destruct (IH (fun b I => H b (or_intror I)) s1) as [s' [E' [I' C']]]. exists s'. cbn. rewrite E1. cbn.
    split; [exact E'|split; [|lia]]. intros x [<-|I]; [apply I'; apply in_or_app; right; apply I1; left; reflexivity|]. apply in_app_or in I as [I|I]; apply I'; apply in_or_app; [left; exact I|right; apply I1; right; exact I].
  Qed.
  Lemma again ks q : NoDup ks -> (forall a, In a q -> good a /\ In (label a) ks) -> forall s, incl ks (keys s) -> List.length q * List.length ks <= fold_cost f cost s q /\ exists s', fold_res f s q = Ok s'.
  Proof.
    intros N. induction q as [|a q IH]; intros H s R; [split; [cbn; lia|exists s; reflexivity]|]. destruct (H a (or_introl eq_refl)) as [G L]. destruct (step s a G) as [s' [E I]].
    destruct (IH (fun b J => H b (or_intror J)) s') as [C X]; [intros x J; apply I; right; apply R; exact J|].
    pose proof (high s a G (R _ L)) as B. pose proof (NoDup_incl_length N R) as D. cbn. rewrite E. cbn. split; [lia|exact X].
  Qed.
  Lemma both p q : forall s s1, fold_res f s p = Ok s1 -> fold_res f s (p ++ q) = fold_res f s1 q.
  Proof. induction p as [|a p IH]; intros s s1 E; [injection E as ->; reflexivity|]. cbn in *. destruct (f s a) as [s'| |]; try discriminate E. apply IH. exact E. Qed.
  Lemma twice_high l : (forall a, In a l -> good a) -> NoDup (map label l) -> forall s, List.length l * List.length l <= fold_cost f cost s (l ++ l) /\ exists s', fold_res f s (l ++ l) = Ok s'.
  Proof.
    intros H N s. destruct (first_time l l H s) as [s1 [E1 [I1 C1]]]. destruct (again (map label l) l N) with (s := s1) as [C2 [s2 E2]].
    - intros a I. split; [apply H; exact I|apply in_map; exact I].
    - intros x I. apply I1. apply in_or_app. left. exact I.
    - rewrite map_length in C2. split; [lia|]. exists s2. rewrite (both l l s s1 E1). exact E2.
  Qed.
End Fold.

Lemma put_incl {K V} keq k (v : V) (l : list (K * V)) : (forall x, keq x k = true -> x = k) -> incl (k :: map fst l) (map fst (sput keq k v l)).
Proof.
  intros Q x I. unfold sput, sdelete. rewrite map_app. apply in_or_app. destruct I as [<-|I]; [right; left; reflexivity|]. apply in_map_iff in I as [e [<- I]]. destruct (keq (fst e) k) eqn:E.
  - right. left. symmetry. apply Q. exact E.
  - left. apply in_map. apply filter_In. split; [exact I|]. unfold other. rewrite E. reflexivity.
Qed.
Lemma put_high {K V} keq k (m : amap K V) : keq k k = true -> In k (map fst (ents m)) -> List.length (map fst (ents m)) <= put_cost keq k m.
Proof.
  intros Q I. unfold put_cost. rewrite map_length. assert (shas keq k (ents m) = true) as ->; [|reflexivity]. apply in_map_iff in I as [e [E I]]. apply existsb_exists. exists e. split; [exact I|]. rewrite E. exact Q.
Qed.
Lemma str_only x s : gkey_eqb x (KStr s) = true -> x = KStr s.
Proof. destruct x as [| |y| | |]; cbn; try discriminate. intros E. apply String.eqb_eq in E. subst. reflexivity. Qed.

(** the keys [/], [/a], [/aa], ..., and again *)
Definition key (i : nat) : string := String "/" (String.concat "" (repeat "a"%string i)).
Definition rows (k : nat) : list (node * node) := map (fun i => (str_node (key i), str_node "")) (seq 0 k).
Definition doubled (k : nat) : node := Map TMap (rows k ++ rows k).

Lemma length_key i : String.length (key i) = Datatypes.S i.
Proof.
  unfold key. cbn. f_equal. induction i as [|[|i] IH]; [reflexivity..|]. change (repeat "a"%string (Datatypes.S (Datatypes.S i))) with ("a"%string :: repeat "a"%string (Datatypes.S i)).
  change (String.concat "" ("a"%string :: repeat "a"%string (Datatypes.S i))) with (String "a" (String.concat "" (repeat "a"%string (Datatypes.S i)))). cbn [String.length]. f_equal. exact IH.
Qed.
Lemma key_inj i j : key i = key j -> i = j.
Proof. intros E. apply (f_equal String.length) in E. rewrite !length_key in E. lia. Qed.
Lemma doubled_nodes k : nodes (doubled k) = 4 * k + 1.
Proof.
  unfold doubled. rewrite nodes_map, total_app. cut (total pair_nodes (rows k) = 2 * k); [lia|]. unfold rows. cut (forall i, total pair_nodes (map (fun j => (str_node (key j), str_node "")) (seq i k)) = 2 * k); [intros H; apply H|]. induction k as [|k IH]; intros i; [reflexivity|]. cbn [seq map]. rewrite total_cons, IH. cbn. lia.
Qed.
Definition slashed (e : node * node) : Prop := exists t, fst e = str_node (String "/" t).
Lemma rows_slashed k e : In e (rows k) -> slashed e.
Proof. unfold rows. intros I. apply in_map_iff in I as [i [<- _]]. eexists. reflexivity. Qed.
Lemma rows_nodup {K} k (g : string -> K) : (forall s t, g s = g t -> s = t) -> NoDup (map (fun e => g (value (fst e))) (rows k)).
Proof.
  intros J. unfold rows. rewrite map_map. cbn. apply (FinFun.Injective_map_NoDup (f := fun i => g (key i))); [|apply seq_NoDup]. intros i j E. apply key_inj. apply J. exact E.
Qed.
Lemma rows_length k : List.length (rows k) = k.
Proof. unfold rows. rewrite map_length, seq_length. reflexivity. Qed.

Section High.
  Context {F : FloatIO}.

  Lemma api_high k a : k * k <= api_load_cost (doubled k) a /\ exists a', api_unmarshal (doubled k) a = Ok a'.
  Proof.
    unfold api_load_cost, api_unmarshal, doubled. cbn [map_cost map_fold]. rewrite <- (rows_length k) at 1 2.
    apply (twice_high api_assign api_cost (fun a => map fst (ents (a_resources a))) (fun e => value (fst e)) slashed); [| |apply rows_slashed|apply (rows_nodup k (fun s => s)); auto].
    - intros s [ky v] [t E]. cbn in E. subst ky. eexists. split; [reflexivity|]. apply (put_incl String.eqb). intros x Q. apply String.eqb_eq. exact Q.
    - intros s [ky v] [t E]. cbn in E. subst ky. apply put_high. apply String.eqb_refl.
  Qed.
  Lemma lib_high k a : k * k <= lib_load_cost (doubled k) a /\ exists a', lib_unmarshal (doubled k) a = Ok a'.
  Proof.
    unfold lib_load_cost, lib_unmarshal, doubled. cbn [map_cost map_fold]. rewrite <- (rows_length k) at 1 2.
    apply (twice_high lib_assign lib_cost (fun a => map fst (ents (l_extra a))) (fun e => KStr (value (fst e))) slashed); [| |apply rows_slashed|apply (rows_nodup k KStr); intros s t E; injection E; auto].
    - intros s [ky v] [t E]. cbn in E. subst ky. eexists. split; [reflexivity|]. apply (put_incl gkey_eqb). intros x Q. apply str_only. exact Q.
    - intros s [ky v] [t E]. cbn in E. subst ky. apply (put_high gkey_eqb). apply String.eqb_refl.
  Qed.
  Lemma rows_sift k : sift_type (rows k ++ rows k) = Ok (new_type TyString).
  Proof.
    unfold sift_type. assert (H : sift_scan (rows k ++ rows k) false false = (None, false, false)); [|rewrite H; reflexivity].
    assert (G : forall e, In e (rows k ++ rows k) -> slashed e) by (intros e I; apply in_app_or in I as [I|I]; apply (rows_slashed k); exact I). revert G. generalize (rows k ++ rows k). intros l.
    induction l as [|[ky v] l IH]; intros G; [reflexivity|]. destruct (G (ky, v) (or_introl eq_refl)) as [t E]. cbn in E. subst ky. cbn. apply IH. intros e I. apply G. right. exact I.
  Qed.
  Lemma hat_high k : k * k <= hat_cost (doubled k) /\ exists d, hat (doubled k) = Ok d.
  Proof.
    rewrite hat_unfold. rewrite hat_eq. unfold hat_cost_body, hat_body, doubled. cbn [is_string node_tag]. rewrite rows_sift. cbn [bind].
    pose proof (twice_high (type_assign hat) (type_cost hat hat_cost) (fun d => map fst (ents (b_extra (d_base d)))) (fun e => KStr (value (fst e))) slashed) as H.
    edestruct H with (l := rows k) (s := new_type TyString) as [C X]; clear H.
    - intros s [ky v] [t E]. cbn in E. subst ky. destruct s as [b|b x f c s].
      + eexists. split; [reflexivity|]. apply (put_incl gkey_eqb). intros x Q. apply str_only. exact Q.
      + destruct s; (eexists; split; [reflexivity|]; apply (put_incl gkey_eqb); intros y Q; apply str_only; exact Q).
    - intros s [ky v] [t E]. cbn in E. subst ky. destruct s as [b|b x f c s]; [apply (put_high gkey_eqb); apply String.eqb_refl|]. destruct s; (apply (put_high gkey_eqb); apply String.eqb_refl).
    - apply rows_slashed.
    - apply (rows_nodup k KStr). intros s t E. injection E. auto.
    - rewrite rows_length in C. split; [lia|]. exact X.
  Qed.
End High.
