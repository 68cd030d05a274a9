(** Proofs of C86. *)
From Coq Require Import SpecFloat.
From Verif Require Import Base Num OMap OMapSpec Keys Yaml Values Assign Formats Meta Out Xml Example DataType Marshal Doc Api Library TypeFacts Setters SetterSpec Live Objects
  ObjProofs ObjHeap ObjPrograms Independent IndependentProofs Sharing.

(** ** Lists of pointers alike *)

Inductive opt_rel {A B} (R : A -> B -> Prop) : option A -> option B -> Prop :=
| opt_none : opt_rel R None None
| opt_some a b : R a b -> opt_rel R (Some a) (Some b).
Definition rel {A B} (R : option A -> option B -> Prop) (l : list (name * option A)) (k : list (name * option B)) : Prop := Forall2 (fun e e' => fst e = fst e' /\ R (snd e) (snd e')) l k.
Inductive crel {A B} (R : option A -> option B -> Prop) : change A -> change B -> Prop :=
| crel_sets l k : rel R l k -> crel R (Sets l) (Sets k)
| crel_put k v w : R v w -> crel R (Entries (OPut k v)) (Entries (OPut k w))
| crel_pin k v w : R v w -> crel R (Entries (OPutIfNotNil k (Some v))) (Entries (OPutIfNotNil k (Some w)))
| crel_rop k v w : R v w -> crel R (Entries (OReplaceOrPut k v)) (Entries (OReplaceOrPut k w))
| crel_rie k v w : R v w -> crel R (Entries (OReplaceIfExists k v)) (Entries (OReplaceIfExists k w))
| crel_del k : crel R (Entries (ODelete k)) (Entries (ODelete k))
| crel_idle o o' : idle o = true -> idle o' = true -> crel R (Entries o) (Entries o').

Section Rel.
  Context {A B : Type}.
  Variable R : option A -> option B -> Prop.
  Lemma rel_names l k : rel R l k -> map fst l = map fst k.
  Proof. intros H. induction H as [|[n v] [n' w] l k [E _] H IH]; [reflexivity|]. cbn [map fst] in *. congruence. Qed.
  Lemma rel_get n l k : rel R l k -> opt_rel R (sget name_eqb n l) (sget name_eqb n k).
  Proof.
    intros H. unfold sget. induction H as [|[m v] [m' w] l k [E V] H IH]; [constructor|]. cbn [fst snd find] in *. subst m'. destruct (name_eqb m n); [constructor; exact V|exact IH].
  Qed.
  Lemma rel_delete n l k : rel R l k -> rel R (sdelete name_eqb n l) (sdelete name_eqb n k).
  Proof.
    intros H. unfold sdelete. induction H as [|[m v] [m' w] l k [E V] H IH]; [constructor|]. cbn [fst snd filter] in *. subst m'. rewrite !other_pair. destruct (name_eqb m n); cbn [negb]; [exact IH|]. constructor; [split; [reflexivity|exact V]|exact IH].
  Qed.
  Lemma rel_replace n v w l k : R v w -> rel R l k -> rel R (sreplace name_eqb n v l) (sreplace name_eqb n w k).
  Proof.
    intros V H. unfold sreplace. induction H as [|[m v'] [m' w'] l k [E V'] H IH]; [constructor|]. cbn [fst snd map] in *. subst m'. destruct (name_eqb m n); constructor; try exact IH; split; try reflexivity; assumption.
  Qed.
  Lemma rel_app l k l' k' : rel R l k -> rel R l' k' -> rel R (l ++ l') (k ++ k').
  Proof. apply Forall2_app. Qed.
  Lemma rel_put n v w l k : R v w -> rel R l k -> rel R (sput name_eqb n v l) (sput name_eqb n w k).
  Proof. intros V H. unfold sput. apply rel_app; [apply rel_delete; exact H|]. constructor; [split; [reflexivity|exact V]|constructor]. Qed.
  Lemma rel_change c d l k : crel R c d -> rel R l k -> rel R (change_ptrs c l) (change_ptrs d k).
  Proof.
    intros C H. destruct C as [s t S|n v w V|n v w V|n v w V|n v w V|n|o o' I1 I2].
    - cbn [change_ptrs]. revert l k H. induction S as [|[m v] [m' w] s t [E V] S IH]; intros l k H; [exact H|]. cbn [fold_left fst snd] in *. subst m'. apply IH. apply rel_replace; assumption.
    - apply rel_put; assumption.
    - apply rel_put; assumption.
    - cbn [change_ptrs sstep]. rewrite (has_names n l k (rel_names l k H)). destruct (shas name_eqb n k); [apply rel_replace|apply rel_put]; assumption.
    - apply rel_replace; assumption.
    - apply rel_delete. exact H.
    - rewrite (idle_ptrs o l I1), (idle_ptrs o' k I2). exact H.
  Qed.
  Lemma rel_in l k n v : rel R l k -> In (n, v) l -> exists w, In (n, w) k /\ R v w.
  Proof.
    intros H. induction H as [|[m v'] [m' w'] l k [E V] H IH]; [intros []|]. cbn [fst snd] in *. subst m'. intros [X|X]; [injection X as -> ->; exists w'; split; [left; reflexivity|exact V]|].
    destruct (IH X) as [w [I W]]. exists w. split; [right; exact I|exact W].
  Qed.
End Rel.
Lemma rel_impl {A B} (R S : option A -> option B -> Prop) l k : (forall n v w, In (n, v) l -> In (n, w) k -> R v w -> S v w) -> rel R l k -> rel S l k.
Proof.
  intros I H. induction H as [|[m v] [m' w] l k [E V] H IH]; [constructor|]. cbn [fst snd] in *. subst m'. constructor; [split; [reflexivity|]; apply (I m); [left; reflexivity|left; reflexivity|exact V]|]. apply IH. intros n v' w' I1 I2. apply (I n); right; assumption.
Qed.
Lemma crel_impl {A B} (R S : option A -> option B -> Prop) c d : (forall v w, R v w -> S v w) -> crel R c d -> crel S c d.
Proof. intros I C. destruct C as [s t H|n v w V|n v w V|n v w V|n v w V|n|o o' I1 I2]; try (constructor; auto; fail). constructor. apply (rel_impl R); [|exact H]. intros n v w _ _. apply I. Qed.
Lemma change_names {A} (c : change A) ps : NoDup (map fst ps) -> NoDup (map fst (change_ptrs c ps)).
Proof.
  destruct c as [l|o]; cbn [change_ptrs].
  - revert ps. induction l as [|[m w] l IH]; intros ps N; [exact N|]. cbn [fold_left]. apply IH. rewrite replace_names. exact N.
  - intros N. destruct o as [k v|k [v|]|k v|k v|k|b|k|k|k| |j|k| ]; cbn [sstep]; try exact N.
    + apply put_names. exact N.
    + apply put_names. exact N.
    + destruct (shas name_eqb k ps); [rewrite replace_names; exact N|apply put_names; exact N].
    + rewrite replace_names. exact N.
    + apply (delete_names k ps N).
    + destruct (sat j ps); exact N.
Qed.

(** ** Things from objects of the right kinds *)

Definition kin (v w : option thing) : Prop := match v, w with Some u, Some u' => sort u = sort u' | None, None => True | _, _ => False end.
Lemma keyed_join {A} (th : A -> thing) (un : thing -> option A) (N : nat) (Sn : forall a, sort (th a) = N) (Un : forall u, sort u = N -> exists a, u = th a /\ un u = Some a) m ps :
  rel kin ps (keyed th m) -> forall b, keyed th (mkMap (entries_of un ps) b) = ps.
Proof.
  intros H b. unfold keyed, entries_of in *. cbn [ents]. remember (map (fun e => (NKey (fst e), Some (th (snd e)))) (ents m)) as l eqn:E. revert E. generalize (ents m) as e.
  induction H as [|[n v] [n' w] ps l [En K] H IH]; intros e E; [reflexivity|]. destruct e as [|[k a] e]; [discriminate E|]. injection E as -> -> E. cbn [fst snd] in *. subst n. destruct v as [u|]; [|destruct K]. cbn [kin] in K. rewrite Sn in K.
  destruct (Un u K) as [a' [-> U]]. cbn [flat_map]. rewrite U. cbn [app map fst snd]. rewrite (IH e E). reflexivity.
Qed.
Lemma indexed_join l : forall i ps, rel kin ps (indexed ThDoc i l) -> indexed ThDoc i (slots_of as_doc ps) = ps.
Proof.
  induction l as [|d l IH]; intros i ps H; inversion H as [|[n v] e ps' k [En K] H' E1 E2]; subst; [reflexivity|]. cbn [fst snd] in *. subst n. destruct v as [u|]; [|destruct K]. destruct u; try discriminate K.
  unfold slots_of. cbn [flat_map snd as_doc app indexed]. f_equal. apply IH. exact H'.
Qed.
Ltac ones H := match type of H with
  | Forall2 _ _ (_ :: _) => let n := fresh "n" in let v := fresh "v" in let e := fresh "e" in let ps := fresh "ps" in let k := fresh "k" in let En := fresh "En" in let K := fresh "K" in let H' := fresh "H" in
      inversion H as [|[n v] e ps k [En K] H']; subst; clear H; cbn [fst snd] in En, K; subst n; ones H'
  | Forall2 _ _ [] => inversion H; subst; clear H
  end.
Ltac known := repeat match goal with
  | K : kin ?v (Some _) |- _ => destruct v as [[]|]; try discriminate K; try contradiction K; clear K
  | K : kin ?v None |- _ => destruct v; [contradiction K|clear K]
  | K : kin ?v (option_map _ ?w) |- _ => destruct w; cbn [option_map] in K
  end.
Lemma join_like t ps : rel kin ps (parts t) -> bare (join (bare t) ps) = bare t /\ parts (join (bare t) ps) = ps.
Proof.
  intros H. destruct t as [p|l|[b|b x fs c s]|e|x|d|l|m|m|m|m|m|m|m]; cbn [parts] in H; unfold rel in H.
  - ones H. known; split; reflexivity.
  - ones H. known; split; reflexivity.
  - ones H. known; split; reflexivity.
  - destruct s; cbn [spec_parts app] in H; ones H; known; split; reflexivity.
  - ones H. known; split; reflexivity.
  - inversion H; subst. split; reflexivity.
  - ones H. known; split; reflexivity.
  - cbn [bare join parts]. split; [reflexivity|]. exact (indexed_join l 0%nat ps H).
  - cbn [bare join parts oord]. split; [reflexivity|]. apply (keyed_join ThDef as_def 2%nat (fun _ => eq_refl)) with (m := m); [|exact H]. intros u K. destruct u; try discriminate K. eexists. split; reflexivity.
  - cbn [bare join parts oord]. split; [reflexivity|]. apply (keyed_join ThDefs as_defs 7%nat (fun _ => eq_refl)) with (m := m); [|exact H]. intros u K. destruct u; try discriminate K. eexists. split; reflexivity.
  - cbn [bare join parts oord]. split; [reflexivity|]. apply (keyed_join ThEx as_ex 3%nat (fun _ => eq_refl)) with (m := m); [|exact H]. intros u K. destruct u; try discriminate K. eexists. split; reflexivity.
  - cbn [bare join parts oord]. split; [reflexivity|]. apply (keyed_join ThUntyped as_untyped 11%nat (fun _ => eq_refl)) with (m := m); [|exact H]. intros u K. destruct u; try discriminate K. eexists. split; reflexivity.
  - inversion H; subst. split; reflexivity.
  - inversion H; subst. split; reflexivity.
  - inversion H; subst. split; reflexivity.
Qed.

(** ** A thing at an address, its parts anywhere *)

Inductive is_at (h : heap) : nat -> thing -> Prop :=
| is_at_obj r o t : nth_error h r = Some o -> own o = bare t -> NoDup (map fst (parts t)) -> rel (opt_rel (is_at h)) (ptrs o) (parts t) -> is_at h r t.
Definition size (t : thing) : nat := tree_size (lay t).
Lemma size_part t n q : In (n, Some q) (parts t) -> (size q < size t)%nat.
Proof.
  intros H. unfold size. rewrite (lay_eq t), tree_size_eq. apply Nat.lt_succ_r. unfold lay_all, trees_size. induction (parts t) as [|[m [w|]] l IH]; [destruct H| |].
  - cbn [map fst snd option_map fold_right]. destruct H as [H|H]; [injection H as -> ->; lia|]. specialize (IH H). lia.
  - cbn [map fst snd option_map fold_right]. destruct H as [H|H]; [discriminate H|]. exact (IH H).
Qed.
Lemma get_part_in n t q : get_part n t = Some q -> In (n, Some q) (parts t).
Proof. unfold get_part. destruct (sget name_eqb n (parts t)) as [w|] eqn:E; [|discriminate]. intros ->. exact (get_in n _ _ E). Qed.

Lemma is_at_one h : forall N r t t', (size t <= N)%nat -> is_at h r t -> is_at h r t' -> t = t'.
Proof.
  induction N as [|N IH]; intros r t t' S A B; [unfold size in S; rewrite (lay_eq t), tree_size_eq in S; lia|]. inversion A as [r0 o t0 E O Nd P]; subst. inversion B as [r0 o' t0 E' O' Nd' P']; subst. rewrite E in E'. injection E' as <-.
  apply thing_ext; [congruence|]. clear E A B O O' Nd Nd'.
  assert (Sz : forall n q, In (n, Some q) (parts t) -> (size q <= N)%nat) by (intros n q H; apply size_part in H; lia). clear S. revert P P' Sz. generalize (ptrs o) (parts t) (parts t'). intros l k.
  revert k. induction l as [|[n v] l IHl]; intros k k' P P' Sz; inversion P as [|? [m w] ? ? [Ew W] P1]; subst; inversion P' as [|? [m' w'] ? ? [Ew' W'] P1']; subst; [reflexivity|].
  cbn [fst snd] in *. subst m m'. f_equal; [|apply IHl; [exact P1|exact P1'|intros m q H; apply (Sz m); right; exact H]]. f_equal.
  inversion W as [|a b W1]; subst; inversion W' as [|a' b' W1']; subst; [reflexivity|]. f_equal. apply (IH a b b'); [apply (Sz n); left; reflexivity|assumption|assumption].
Qed.
Lemma is_at_same h r t t' : is_at h r t -> is_at h r t' -> t = t'.
Proof. exact (is_at_one h (size t) r t t' (le_n _)). Qed.
Lemma is_at_get h r t n : is_at h r t -> match get_part n t with Some q => exists r', h_get h n r = Some r' /\ is_at h r' q | None => h_get h n r = None end.
Proof.
  intros A. inversion A as [r0 o t0 E O Nd P]; subst. unfold h_get, get_part. rewrite E. pose proof (rel_get _ n _ _ P) as G. inversion G as [Ga Gb|v w V Ga Gb]; [reflexivity|].
  inversion V as [|a b W]; subst; [reflexivity|]. exists a. split; [reflexivity|exact W].
Qed.
Lemma is_at_follow h : forall ns r t, is_at h r t -> match follow ns t with Some q => exists r', h_follow h ns r = Some r' /\ is_at h r' q | None => h_follow h ns r = None end.
Proof.
  induction ns as [|n ns IH]; intros r t A; cbn [follow h_follow]; [exists r; split; [reflexivity|exact A]|]. pose proof (is_at_get h r t n A) as G. destruct (get_part n t) as [q|]; [|rewrite G; reflexivity]. destruct G as [r' [-> A']]. exact (IH r' q A').
Qed.
Lemma is_at_reach h ns r t i : is_at h r t -> h_follow h ns r = Some i -> exists q, follow ns t = Some q /\ is_at h i q.
Proof.
  intros A E. pose proof (is_at_follow h ns r t A) as G. destruct (follow ns t) as [q|]; [|congruence]. destruct G as [r' [E' A']]. exists q. split; [reflexivity|]. congruence.
Qed.
Lemma is_at_looks h r t : is_at h r t -> looks_like h r t.
Proof.
  intros A ns. pose proof (is_at_follow h ns r t A) as G. destruct (follow ns t) as [q|]; [|exact G]. destruct G as [r' [E A']]. inversion A' as [r0 o t0 E0 O Nd P]; subst. exists r', o. repeat split; try assumption. exact (rel_names _ _ _ P).
Qed.
Lemma follow_size : forall ns t q, follow ns t = Some q -> (size q + List.length ns <= size t)%nat.
Proof.
  induction ns as [|n ns IH]; intros t q E; cbn [follow List.length] in *; [injection E as ->; lia|]. destruct (get_part n t) as [p|] eqn:G; [|discriminate E]. apply get_part_in, size_part in G. specialize (IH p q E). lia.
Qed.
(** It does not contain itself. *)
Lemma is_at_finite h r t ns : is_at h r t -> h_follow h ns r = Some r -> ns = [].
Proof.
  intros A E. destruct (is_at_reach h ns r t r A E) as [q [F A']]. assert (q = t) by exact (is_at_same h r q t A' A). subst q. apply follow_size in F. destruct ns; [reflexivity|]. cbn [List.length] in F. lia.
Qed.

(** ** All of it can be gone through *)

Lemma rel_whole h f l k : rel (opt_rel (is_at h)) l k -> (forall r n q, In (n, Some q) k -> is_at h r q -> f r = Some q) -> whole_all f l = Some k.
Proof.
  intros H. induction H as [|[n v] [n' w] l k [E V] H IH]; intros Hf; [reflexivity|]. cbn [fst snd] in *. subst n'. cbn [whole_all]. fold (whole_all f). rewrite IH; [|intros r m q I; apply (Hf r m q); right; exact I].
  inversion V as [|a b W]; subst; [reflexivity|]. rewrite (Hf a n b); [reflexivity|left; reflexivity|exact W].
Qed.
(** The longest chain down *)
Lemma is_at_chain h : forall N t r, (size t <= N)%nat -> is_at h r t -> forall M, (forall l, NoDup l -> (forall j, In j l -> (j < List.length h)%nat /\ exists q, is_at h j q /\ (size q <= size t)%nat) -> (List.length l <= M)%nat) ->
  whole_from M h r = Some t.
Proof.
  induction N as [|N IH]; intros t r S A M HM; [unfold size in S; rewrite (lay_eq t), tree_size_eq in S; lia|]. inversion A as [r0 o t0 E O Nd P]; subst.
  assert (Lr : (r < List.length h)%nat) by (apply nth_error_Some; congruence).
  destruct M as [|M].
  { assert (L : (List.length [r] <= 0)%nat) by (apply HM; [repeat constructor; intros []|intros j [<-|[]]; split; [exact Lr|exists t; split; [exact A|lia]]]). cbn in L. lia. }
  cbn [whole_from]. rewrite E. rewrite (rel_whole h (whole_from M h) (ptrs o) (parts t) P); [rewrite O, join_parts; reflexivity|].
  intros r' n q I A'. assert (Sq : (size q < size t)%nat) by exact (size_part t n q I). apply IH; [lia|exact A'|]. intros l Nl Hl.
  assert (L : (List.length (r :: l) <= Datatypes.S M)%nat).
  { apply HM.
    - constructor; [|exact Nl]. intros Hr. destruct (Hl r Hr) as [_ [p [Ap Sp]]]. assert (p = t) by exact (is_at_same h r p t Ap A). subst p. lia.
    - intros j [<-|Hj]; [split; [exact Lr|exists t; split; [exact A|lia]]|]. destruct (Hl j Hj) as [Lj [p [Ap Sp]]]. split; [exact Lj|]. exists p. split; [exact Ap|lia]. }
  cbn [List.length] in L. lia.
Qed.
Lemma is_at_whole h r t : is_at h r t -> whole h r = Some t.
Proof.
  intros A. unfold whole. apply (is_at_chain h (size t) t r (le_n _) A). intros l Nl Hl. rewrite <- (seq_length (List.length h) 0%nat). apply NoDup_incl_length; [exact Nl|]. intros j Hj. apply in_seq. destruct (Hl j Hj) as [Lj _]. lia.
Qed.

(** ** One object changes *)

Lemma in_get {A} n (v : A) ps : NoDup (map fst ps) -> In (n, v) ps -> sget name_eqb n ps = Some v.
Proof.
  induction ps as [|[m w] ps IH]; intros N I; [destruct I|]. cbn [map fst] in N. inversion N as [|x l Hn N']; subst. unfold sget. cbn [find fst]. destruct I as [E|I].
  - injection E as -> ->. rewrite name_eqb_refl. reflexivity.
  - destruct (name_eqb m n) eqn:E; [|exact (IH N' I)]. apply name_eqb_eq in E. subst m. exfalso. apply Hn. apply (in_map fst) in I. exact I.
Qed.

Section Shared.
  Variables h h' : heap.
  Variable i : nat.
  Hypothesis frame : forall j, j <> i -> (j < List.length h)%nat -> nth_error h' j = nth_error h j.

  Lemma untouched_upto : forall N t r, (size t <= N)%nat -> is_at h r t -> (forall ns, h_follow h ns r <> Some i) -> is_at h' r t.
  Proof.
    induction N as [|N IH]; intros t r S A Y; [unfold size in S; rewrite (lay_eq t), tree_size_eq in S; lia|].
    inversion A as [r0 o t0 E O Nd P]; subst. apply (is_at_obj h' r o t); [rewrite frame; [exact E| |apply nth_error_Some; congruence]|exact O|exact Nd|].
    { intros ->. exact (Y [] eq_refl). }
    assert (Hn : forall n c, In (n, Some c) (ptrs o) -> forall ns, h_follow h ns c <> Some i).
    { intros n c I ns F. apply (Y (n :: ns)). cbn [h_follow]. unfold h_get. rewrite E. rewrite (in_get n (Some c) (ptrs o)); [exact F| |exact I]. rewrite (rel_names _ _ _ P). exact Nd. }
    assert (Hs : forall n u, In (n, Some u) (parts t) -> (size u <= N)%nat) by (intros n u I; apply size_part in I; lia).
    clear E O A Y Nd. revert Hn Hs. induction P as [|[n v] [n' w] rs ps [En V] P IHp]; intros Hn Hs; [constructor|]. cbn [fst snd] in *. subst n'. constructor.
    - split; [reflexivity|]. cbn [snd]. inversion V as [|c u W]; subst; constructor. apply IH; [apply (Hs n); left; reflexivity|exact W|apply (Hn n); left; reflexivity].
    - apply IHp; [intros m c I; apply (Hn m c); right; exact I|intros m u I; apply (Hs m u); right; exact I].
  Qed.
  Lemma untouched t r : is_at h r t -> (forall ns, h_follow h ns r <> Some i) -> is_at h' r t.
  Proof. apply (untouched_upto (size t)). lia. Qed.
  Variables q q' : thing.
  Hypothesis before : is_at h i q.
  Hypothesis after : is_at h' i q'.
  Hypothesis same_sort : sort q' = sort q.

  Definition spec_at (r : nat) (t t' : thing) : Prop :=
    (forall ms, h_follow h ms r = Some i -> follow ms t' = Some q') /\
    (forall ms, (forall ns, h_follow h ns r = Some i -> ~ prefix ns ms /\ ~ prefix ms ns) -> follow ms t' = follow ms t) /\
    (forall ms p, (forall ns, h_follow h ns r = Some i -> ~ prefix ns ms) -> follow ms t = Some p -> exists p', follow ms t' = Some p' /\ bare p' = bare p /\ map fst (parts p') = map fst (parts p)).

  Lemma shared_parts rs ps : rel (opt_rel (is_at h)) rs ps -> (forall n u c, In (n, Some u) ps -> is_at h c u -> exists u', is_at h' c u' /\ sort u' = sort u /\ spec_at c u u') ->
    exists ps', rel (opt_rel (is_at h')) rs ps' /\ rel kin ps' ps /\
      forall n, match sget name_eqb n rs with
                | Some (Some c) => exists u u', sget name_eqb n ps = Some (Some u) /\ sget name_eqb n ps' = Some (Some u') /\ spec_at c u u'
                | _ => match sget name_eqb n ps' with Some (Some _) => False | _ => True end /\ match sget name_eqb n ps with Some (Some _) => False | _ => True end
                end.
  Proof.
    intros H. induction H as [|[n v] [n' w] rs ps [E V] H IH]; intros Hs; [exists []; split; [constructor|split; [constructor|]]; intros n; split; exact I|]. cbn [fst snd] in *. subst n'.
    destruct IH as [ps' [R [K G]]]; [intros m u c Hm; apply (Hs m u c); right; exact Hm|]. inversion V as [|c u W]; subst.
    - exists ((n, None) :: ps'). split; [constructor; [split; [reflexivity|constructor]|exact R]|]. split; [constructor; [split; [reflexivity|exact I]|exact K]|].
      intros m. unfold sget. cbn [find fst]. destruct (name_eqb n m); [split; exact I|exact (G m)].
    - destruct (Hs n u c (or_introl eq_refl) W) as [u' [W' [Sw Sp]]]. exists ((n, Some u') :: ps'). split; [constructor; [split; [reflexivity|constructor; exact W']|exact R]|]. split; [constructor; [split; [reflexivity|exact Sw]|exact K]|].
      intros m. unfold sget. cbn [find fst]. destruct (name_eqb n m); [exists u, u'; repeat split; apply Sp|exact (G m)].
  Qed.
  Lemma shared : forall N t r, (size t <= N)%nat -> is_at h r t -> exists t', is_at h' r t' /\ sort t' = sort t /\ spec_at r t t'.
  Proof.
    induction N as [|N IH]; intros t r S A; [unfold size in S; rewrite (lay_eq t), tree_size_eq in S; lia|].
    destruct (Nat.eq_dec r i) as [->|D].
    - assert (t = q) by exact (is_at_same h i t q A before). subst t. exists q'. split; [exact after|]. split; [exact same_sort|]. split; [|split].
      + intros ms E. rewrite (is_at_finite h i q ms before E). reflexivity.
      + intros ms X. destruct (X [] eq_refl) as [P _]. exfalso. apply P. exists ms. reflexivity.
      + intros ms p X. exfalso. apply (X [] eq_refl). exists ms. reflexivity.
    - inversion A as [r0 o t0 E O Nd P]; subst. assert (Lr : (r < List.length h)%nat) by (apply nth_error_Some; congruence).
      destruct (shared_parts (ptrs o) (parts t) P) as [ps' [R [K G]]].
      { intros n u c I Au. apply IH; [apply size_part in I; lia|exact Au]. }
      destruct (join_like t ps' K) as [Bj Pj]. set (t' := join (bare t) ps') in *. exists t'.
      assert (A' : is_at h' r t') by (apply (is_at_obj h' r o t'); [rewrite (frame r D Lr); exact E|congruence|rewrite Pj, (rel_names _ _ _ K); exact Nd|rewrite Pj; exact R]).
      split; [exact A'|]. split; [transitivity (sort (bare t')); [destruct t' as [| |[]| | | | | | | | | | |]; reflexivity|rewrite Bj; destruct t as [| |[]| | | | | | | | | | |]; reflexivity]|].
      assert (Hg : forall n, h_get h n r = match sget name_eqb n (ptrs o) with Some p => p | None => None end) by (intros n; unfold h_get; rewrite E; reflexivity).
      assert (Pre : forall n c ms ns, h_get h n r = Some c -> h_follow h ns c = Some i -> prefix (n :: ns) (n :: ms) <-> prefix ns ms).
      { intros n c ms ns _ _. split; intros [ls El]; exists ls; [injection El as El|cbn; f_equal]; exact El. }
      split; [|split].
      + intros [|n ms] F; cbn [h_follow] in F; [congruence|]. specialize (G n). rewrite Hg in F. destruct (sget name_eqb n (ptrs o)) as [[c|]|]; try discriminate F. destruct G as [u [u' [_ [Gu' [Sp _]]]]].
        cbn [follow]. unfold get_part. rewrite Pj, Gu'. exact (Sp ms F).
      + intros ms X. destruct ms as [|n ms].
        * assert (Y : forall ns, h_follow h ns r <> Some i) by (intros ns F; destruct (X ns F) as [_ P2]; apply P2; exists ns; reflexivity).
          cbn [follow]. f_equal. exact (is_at_same h' r t' t A' (untouched t r A Y)).
        * cbn [follow]. unfold get_part. rewrite Pj. specialize (G n). destruct (sget name_eqb n (ptrs o)) as [[c|]|] eqn:Ec.
          -- destruct G as [u [u' [Gu [Gu' [_ [Sp _]]]]]]. rewrite Gu, Gu'. apply Sp. intros ns F. assert (Hc : h_get h n r = Some c) by (rewrite Hg, Ec; reflexivity).
             destruct (X (n :: ns)) as [X1 X2]; [cbn [h_follow]; rewrite Hc; exact F|]. split; intros [ls El]; [apply X1|apply X2]; exists ls; cbn; rewrite El; reflexivity.
          -- destruct G as [G1 G2]. destruct (sget name_eqb n ps') as [[|]|], (sget name_eqb n (parts t)) as [[|]|]; try contradiction; reflexivity.
          -- destruct G as [G1 G2]. destruct (sget name_eqb n ps') as [[|]|], (sget name_eqb n (parts t)) as [[|]|]; try contradiction; reflexivity.
      + intros [|n ms] p X F; cbn [follow] in F.
        * injection F as <-. exists t'. split; [reflexivity|]. split; [exact Bj|]. rewrite Pj. exact (rel_names _ _ _ K).
        * cbn [follow]. unfold get_part in *. rewrite Pj. specialize (G n). destruct (sget name_eqb n (ptrs o)) as [[c|]|] eqn:Ec.
          -- destruct G as [u [u' [Gu [Gu' [_ [_ Sp]]]]]]. rewrite Gu in F. rewrite Gu'. apply Sp; [|exact F]. intros ns Fn Pn. assert (Hc : h_get h n r = Some c) by (rewrite Hg, Ec; reflexivity).
             apply (X (n :: ns)); [cbn [h_follow]; rewrite Hc; exact Fn|]. destruct Pn as [ls El]. exists ls. cbn. rewrite El. reflexivity.
          -- destruct G as [_ G2]. destruct (sget name_eqb n (parts t)) as [[|]|]; try contradiction; discriminate F.
          -- destruct G as [_ G2]. destruct (sget name_eqb n (parts t)) as [[|]|]; try contradiction; discriminate F.
  Qed.
End Shared.

(** ** Memory in order *)

Definition typed (h : heap) (r : nat) (u : thing) : Prop := exists o, nth_error h r = Some o /\ sort (own o) = sort u.
Definition in_order (h : heap) (o : obj nat) : Prop := exists w, own o = bare w /\ NoDup (map fst (parts w)) /\ rel (opt_rel (typed h)) (ptrs o) (parts w).
Definition sound (h : heap) : Prop := forall j o, nth_error h j = Some o -> in_order h o.
Definition extends (h h' : heap) : Prop := forall j, (j < List.length h)%nat -> nth_error h' j = nth_error h j.

Lemma sort_bare t : sort (bare t) = sort t.
Proof. destruct t as [| |[]| | | | | | | | | | |]; reflexivity. Qed.
Lemma opt_impl {A B} (R S : A -> B -> Prop) v w : (forall a b, R a b -> S a b) -> opt_rel R v w -> opt_rel S v w.
Proof. intros I H. destruct H; constructor; auto. Qed.
Lemma is_at_in h r t : is_at h r t -> (r < List.length h)%nat.
Proof. intros A. inversion A as [r0 o t0 E O Nd P]; subst. apply nth_error_Some. congruence. Qed.
Lemma is_at_typed h r t : is_at h r t -> typed h r t.
Proof. intros A. inversion A as [r0 o t0 E O Nd P]; subst. exists o. split; [exact E|]. rewrite O. apply sort_bare. Qed.
Lemma is_at_extends h h' r t : extends h h' -> is_at h r t -> is_at h' r t.
Proof.
  intros X A. apply (untouched h h' (List.length h)); [intros j _; apply X|exact A|]. intros ns F. destruct (is_at_reach h ns r t _ A F) as [q [_ B]]. apply is_at_in in B. lia.
Qed.
Lemma typed_extends h h' r t : extends h h' -> typed h r t -> typed h' r t.
Proof. intros X [o [E S]]. exists o. split; [|exact S]. rewrite X; [exact E|]. apply nth_error_Some. congruence. Qed.
Lemma extends_refl h : extends h h.
Proof. intros j _. reflexivity. Qed.
Lemma extends_trans h h1 h2 : (List.length h <= List.length h1)%nat -> extends h h1 -> extends h1 h2 -> extends h h2.
Proof. intros L A B j Lj. rewrite B by lia. apply A. exact Lj. Qed.
Lemma extends_app h e : extends h (h ++ e).
Proof. intros j L. apply nth_error_app1. exact L. Qed.
Lemma in_order_extends h h' o : extends h h' -> in_order h o -> in_order h' o.
Proof.
  intros X [w [O [N P]]]. exists w. split; [exact O|]. split; [exact N|]. apply (rel_impl (opt_rel (typed h))); [|exact P]. intros n v u _ _. apply opt_impl. intros a b. apply typed_extends. exact X.
Qed.

Definition makes (t : thing) : Prop := forall h, sound h -> let '(h', r) := make (lay t) h in sound h' /\ extends h h' /\ (List.length h <= List.length h')%nat /\ is_at h' r t.
Lemma makes_all l : (forall n t, In (n, Some t) l -> makes t) -> forall h, sound h -> let '(h', rs) := make_all make (lay_all l) h in sound h' /\ extends h h' /\ (List.length h <= List.length h')%nat /\ rel (opt_rel (is_at h')) rs l.
Proof.
  induction l as [|[n [t|]] l IH]; intros F h Sh; cbn [make_all lay_all map fst snd option_map].
  - split; [exact Sh|]. split; [apply extends_refl|]. split; [lia|constructor].
  - pose proof (F n t (or_introl eq_refl) h Sh) as M. destruct (make (lay t) h) as [h1 r]. destruct M as [S1 [X1 [L1 A1]]]. fold (make_all make). pose proof (IH (fun n t I => F n t (or_intror I)) h1 S1) as M. unfold lay_all in M. destruct (make_all make _ h1) as [h2 rs].
    destruct M as [S2 [X2 [L2 R2]]]. split; [exact S2|]. split; [exact (extends_trans h h1 h2 L1 X1 X2)|]. split; [lia|]. constructor; [split; [reflexivity|constructor; exact (is_at_extends h1 h2 r t X2 A1)]|exact R2].
  - fold (make_all make). pose proof (IH (fun n t I => F n t (or_intror I)) h Sh) as M. unfold lay_all in M. destruct (make_all make _ h) as [h2 rs].
    destruct M as [S2 [X2 [L2 R2]]]. split; [exact S2|]. split; [exact X2|]. split; [lia|]. constructor; [split; [reflexivity|constructor]|exact R2].
Qed.
Lemma makes_upto : forall N t, (size t <= N)%nat -> once t -> makes t.
Proof.
  induction N as [|N IH]; intros t Sz On h Sh; [unfold size in Sz; rewrite (lay_eq t), tree_size_eq in Sz; lia|]. rewrite lay_eq. cbn [make]. apply once_parts in On as [Nd Al].
  pose proof (makes_all (parts t)) as M. specialize (fun F => M F h Sh). change (pmap lay (parts t)) with (lay_all (parts t)). destruct (make_all make (lay_all (parts t)) h) as [h1 rs].
  destruct M as [S1 [X1 [L1 R1]]]; [intros n u I; apply IH; [apply size_part in I; lia|exact (Al n u I)]|].
  assert (X2 : extends h1 (h1 ++ [mkObj (bare t) rs])) by apply extends_app.
  assert (R2 : rel (opt_rel (is_at (h1 ++ [mkObj (bare t) rs]))) rs (parts t)) by (apply (rel_impl (opt_rel (is_at h1))); [|exact R1]; intros n v u _ _; apply opt_impl; intros a b; apply is_at_extends; exact X2).
  assert (El : nth_error (h1 ++ [mkObj (bare t) rs]) (List.length h1) = Some (mkObj (bare t) rs)) by (rewrite nth_error_app2, Nat.sub_diag by lia; reflexivity).
  split; [|split; [exact (extends_trans _ _ _ L1 X1 X2)|split; [rewrite app_length; lia|]]].
  - intros j o E. destruct (Nat.lt_ge_cases j (List.length h1)) as [Lj|Lj].
    + rewrite X2 in E by exact Lj. exact (in_order_extends h1 _ o X2 (S1 j o E)).
    + rewrite nth_error_app2 in E by exact Lj. destruct (j - List.length h1)%nat as [|k]; [|destruct k; discriminate E]. injection E as <-. exists t. split; [reflexivity|]. split; [exact Nd|].
      apply (rel_impl (opt_rel (is_at (h1 ++ [mkObj (bare t) rs])))); [|exact R2]. intros n v u _ _. apply opt_impl. intros a b. apply is_at_typed.
  - exact (is_at_obj _ _ _ t El eq_refl Nd R2).
Qed.
Lemma makes_once t : once t -> makes t.
Proof. apply (makes_upto (size t)). lia. Qed.
Lemma makes_change a h : once_act a -> sound h -> let '(h', k) := make_change (change_of a) h in sound h' /\ extends h h' /\ (List.length h <= List.length h')%nat /\ crel (opt_rel (is_at h')) k (change_of a).
Proof.
  unfold once_act. intros On Sh. destruct (change_of a) as [l|o]; cbn [make_change].
  - pose proof (makes_all l (fun n t I => makes_once t (On n t I)) h Sh) as M. destruct (make_all make (lay_all l) h) as [h' rs]. destruct M as [S1 [X1 [L1 R1]]]. repeat split; try assumption. constructor. exact R1.
  - destruct o as [k [v|]|k [[v|]|]|k [v|]|k [v|]|k|b|k|k|k| |j|k| ]; cbn [make_op].
    all: try (pose proof (makes_once v (On v (or_introl eq_refl)) h Sh) as M; destruct (make (lay v) h) as [h' r]; destruct M as [S1 [X1 [L1 A1]]]; repeat split; try assumption; constructor; constructor; exact A1).
    all: split; [exact Sh|]; split; [apply extends_refl|]; split; [lia|].
    all: try (apply crel_idle; reflexivity).
    all: constructor; constructor.
Qed.
Lemma replace_at {A} (f : A -> A) : forall l i j, nth_error (replace_nth i f l) j = if Nat.eqb j i then option_map f (nth_error l j) else nth_error l j.
Proof.
  induction l as [|a l IH]; intros [|i] [|j]; cbn; try reflexivity; [destruct (Nat.eqb j i); reflexivity|apply IH].
Qed.
(** A change of the object at [i] *)
Lemma sound_change h a c i : sound h -> crel (opt_rel (typed h)) c (change_of a) -> sound (replace_nth i (change_obj a c) h).
Proof.
  intros Sh C. set (h' := replace_nth i (change_obj a c) h).
  assert (T : forall r u, typed h r u -> typed h' r u).
  { intros r u [o [E So]]. unfold typed, h'. rewrite replace_at. destruct (Nat.eqb r i); rewrite E; cbn [option_map]; eexists; (split; [reflexivity|]); [|exact So]. unfold change_obj. destruct (fits a (own o)); cbn [own]; [rewrite sort_bare, act_sort|]; exact So. }
  assert (Io : forall o, in_order h o -> in_order h' o).
  { intros o [w [O [N P]]]. exists w. split; [exact O|]. split; [exact N|]. apply (rel_impl (opt_rel (typed h))); [|exact P]. intros n v u _ _. apply opt_impl. exact T. }
  intros j o E. unfold h' in E. rewrite replace_at in E. destruct (Nat.eqb j i); [|exact (Io o (Sh j o E))]. destruct (nth_error h j) as [o0|] eqn:E0; [|discriminate E]. cbn [option_map] in E. injection E as <-. pose proof (Sh j o0 E0) as In0. unfold change_obj. destruct (fits a (own o0)) eqn:Fi; [|exact (Io o0 In0)].
  destruct In0 as [w [O [N P]]]. rewrite O, fits_bare in Fi. exists (act_on a w). cbn [own ptrs]. split; [rewrite O; symmetry; exact (act_bare a w Fi)|]. rewrite (act_parts a w Fi). split; [apply change_names; exact N|].
  apply (rel_impl (opt_rel (typed h))); [intros n v u _ _; apply opt_impl; exact T|]. apply rel_change; assumption.
Qed.

(** ** Finite or endless *)

Lemma whole_all_inv f l ps : whole_all f l = Some ps -> rel (opt_rel (fun r t => f r = Some t)) l ps.
Proof.
  revert ps. induction l as [|[n [r|]] l IH]; intros ps H; cbn [whole_all] in H; fold (whole_all f) in H.
  - injection H as <-. constructor.
  - destruct (f r) as [t|] eqn:E; [|discriminate H]. destruct (whole_all f l) as [k|]; [|discriminate H]. injection H as <-. constructor; [split; [reflexivity|constructor; exact E]|apply IH; reflexivity].
  - destruct (whole_all f l) as [k|]; [|discriminate H]. injection H as <-. constructor; [split; [reflexivity|constructor]|apply IH; reflexivity].
Qed.
Lemma rel_kin h l ps ws : rel (opt_rel (is_at h)) l ps -> rel (opt_rel (typed h)) l ws -> rel kin ps ws.
Proof.
  intros H. revert ws. induction H as [|[n v] [n' p] l ps [E V] H IH]; intros ws K; inversion K as [|e [m w] l' ws' [E' W] K']; subst; [constructor|]. cbn [fst snd] in *. subst. constructor; [|apply IH; exact K']. split; [reflexivity|]. cbn [snd].
  inversion V as [|a b A]; subst; inversion W as [|a' b' T]; subst; [exact I|]. cbn [kin]. destruct (is_at_typed _ _ _ A) as [o [Eo So]]. destruct T as [o' [Eo' So']]. congruence.
Qed.
Lemma build h r o ps : sound h -> nth_error h r = Some o -> rel (opt_rel (is_at h)) (ptrs o) ps -> is_at h r (join (own o) ps).
Proof.
  intros Sh E R. destruct (Sh r o E) as [w [O [N P]]]. pose proof (rel_kin h _ _ _ R P) as K. destruct (join_like w ps K) as [Bj Pj]. rewrite O. apply (is_at_obj h r o); [exact E|congruence|rewrite Pj, (rel_names _ _ _ K); exact N|rewrite Pj; exact R].
Qed.
Lemma whole_from_at h : sound h -> forall N r t, whole_from N h r = Some t -> is_at h r t.
Proof.
  intros Sh. induction N as [|N IH]; intros r t H; [discriminate H|]. cbn [whole_from] in H. destruct (nth_error h r) as [o|] eqn:E; [|discriminate H]. destruct (whole_all (whole_from N h) (ptrs o)) as [ps|] eqn:W; [|discriminate H]. injection H as <-.
  apply build; [exact Sh|exact E|]. apply (rel_impl (opt_rel (fun r t => whole_from N h r = Some t))); [|exact (whole_all_inv _ _ _ W)]. intros n v w _ _. apply opt_impl. exact IH.
Qed.
Lemma whole_at h r t : sound h -> whole h r = Some t -> is_at h r t.
Proof. intros Sh. apply whole_from_at. exact Sh. Qed.

Definition circular (h : heap) (r : nat) : Prop := exists ns i n ms, h_follow h ns r = Some i /\ h_follow h (n :: ms) i = Some i.
Lemma h_follow_app h : forall ns ms r, h_follow h (ns ++ ms) r = match h_follow h ns r with Some i => h_follow h ms i | None => None end.
Proof. induction ns as [|n ns IH]; intros ms r; cbn [app h_follow]; [reflexivity|]. destruct (h_get h n r); [apply IH|reflexivity]. Qed.
Lemma circular_not h r t : circular h r -> is_at h r t -> False.
Proof. intros [ns [i [n [ms [F C]]]]] A. destruct (is_at_reach h ns r t i A F) as [q [_ B]]. discriminate (is_at_finite h i q _ B C). Qed.
Lemma get_known h r o n c : sound h -> nth_error h r = Some o -> In (n, Some c) (ptrs o) -> h_get h n r = Some c.
Proof.
  intros Sh E I. unfold h_get. rewrite E. destruct (Sh r o E) as [w [_ [N P]]]. rewrite (in_get n (Some c) (ptrs o)); [reflexivity| |exact I]. rewrite (rel_names _ _ _ P). exact N.
Qed.
Lemma finite_or h : sound h -> forall k seen r, NoDup seen -> (forall j, In j seen -> (j < List.length h)%nat /\ exists n ms, h_follow h (n :: ms) j = Some r) -> (List.length h <= k + List.length seen)%nat -> (r < List.length h)%nat -> ~ In r seen ->
  (exists t, is_at h r t) \/ circular h r.
Proof.
  intros Sh. induction k as [|k IH]; intros seen r Nd Hs L Lr Nr.
  - exfalso. assert (Len : (List.length (r :: seen) <= List.length (seq 0 (List.length h)))%nat).
    { apply NoDup_incl_length; [constructor; assumption|]. intros j [<-|Hj]; apply in_seq; [lia|]. destruct (Hs j Hj) as [Lj _]. lia. }
    rewrite seq_length in Len. cbn [List.length] in Len. lia.
  - destruct (nth_error h r) as [o|] eqn:E; [|apply nth_error_None in E; lia].
    assert (Ch : forall l, (forall e, In e l -> In e (ptrs o)) -> (exists ps, rel (opt_rel (is_at h)) l ps) \/ circular h r).
    { induction l as [|[n v] l IHl]; intros Hl; [left; exists []; constructor|]. destruct IHl as [[ps R]|C]; [intros e He; apply Hl; right; exact He| |right; exact C].
      destruct v as [c|]; [|left; exists ((n, None) :: ps); constructor; [split; [reflexivity|constructor]|exact R]].
      assert (G : h_get h n r = Some c) by exact (get_known h r o n c Sh E (Hl _ (or_introl eq_refl))).
      assert (Lc : (c < List.length h)%nat).
      { destruct (Sh r o E) as [w [_ [_ P]]]. destruct (rel_in _ _ _ _ _ P (Hl _ (or_introl eq_refl))) as [u [_ T]]. inversion T as [|a b [o' [Eo _]]]; subst. apply nth_error_Some. congruence. }
      destruct (in_dec Nat.eq_dec c (r :: seen)) as [[->|Ic]|Nc].
      - right. exists [], c, n, []. split; [reflexivity|]. cbn [h_follow]. rewrite G. reflexivity.
      - right. destruct (Hs c Ic) as [_ [m [ms F]]]. exists [n], c, m, (ms ++ [n]). split; [cbn [h_follow]; rewrite G; reflexivity|]. change (m :: ms ++ [n]) with ((m :: ms) ++ [n]). rewrite h_follow_app, F. cbn [h_follow]. rewrite G. reflexivity.
      - destruct (IH (r :: seen) c) as [[u A]|[ns [i [m [ms [F C]]]]]].
        + constructor; assumption.
        + intros j [<-|Hj]; [split; [exact Lr|]; exists n, []; cbn [h_follow]; rewrite G; reflexivity|]. destruct (Hs j Hj) as [Lj [m [ms F]]]. split; [exact Lj|]. exists m, (ms ++ [n]). change (m :: ms ++ [n]) with ((m :: ms) ++ [n]). rewrite h_follow_app, F. cbn [h_follow]. rewrite G. reflexivity.
        + cbn [List.length]. lia.
        + exact Lc.
        + exact Nc.
        + left. exists ((n, Some u) :: ps). constructor; [split; [reflexivity|constructor; exact A]|exact R].
        + right. exists (n :: ns), i, m, ms. split; [cbn [h_follow]; rewrite G; exact F|exact C]. }
    destruct (Ch (ptrs o) (fun e H => H)) as [[ps R]|C]; [left; exists (join (own o) ps); apply build; assumption|right; exact C].
Qed.
Lemma finite_or_circular h r : sound h -> (r < List.length h)%nat -> (exists t, is_at h r t) \/ circular h r.
Proof. intros Sh L. apply (finite_or h Sh (List.length h) [] r); [constructor|intros j []|lia|exact L|intros []]. Qed.

(** ** Calls with new arguments *)

Lemma rep_is_at h : forall N t r fp, (size t <= N)%nat -> once t -> rep h r (lay t) fp -> is_at h r t.
Proof.
  induction N as [|N IH]; intros t r fp Sz On R; [unfold size in Sz; rewrite (lay_eq t), tree_size_eq in Sz; lia|]. destruct (rep_lay h r t fp R) as [rs [f [E [Rs _]]]]. apply once_parts in On as [Nd Al]. apply (is_at_obj h r _ t E eq_refl Nd). cbn [ptrs].
  assert (Hp : forall n u, In (n, Some u) (parts t) -> once u /\ (size u <= N)%nat) by (intros n u I; split; [exact (Al n u I)|apply size_part in I; lia]).
  clear E R Nd Al Sz. revert rs f Rs Hp. generalize (parts t) as ps. induction ps as [|[n v] ps IHp]; intros rs f Rs Hp; inversion Rs as [|n0 v0 w0 rs0 ts0 f1 f2 V Rs' D]; subst; [constructor|].
  constructor; [split; [reflexivity|]|apply (IHp _ f2 Rs'); intros m u I; apply (Hp m); right; exact I]. cbn [snd] in *. destruct v as [u|]; cbn [option_map] in V; inversion V as [|r0 t0 f0 R0]; subst; constructor. destruct (Hp n u (or_introl eq_refl)) as [Ou Su]. exact (IH u r0 f1 Su Ou R0).
Qed.
Lemma vrep_is_at h v w fp : (forall t, w = Some t -> once t) -> vrep h v (option_map lay w) fp -> opt_rel (is_at h) v w.
Proof. intros On V. destruct w as [t|]; cbn [option_map] in V; inversion V as [|r0 t0 f0 R0]; subst; constructor. exact (rep_is_at h (size t) t r0 fp (le_n _) (On t eq_refl) R0). Qed.
Lemma reps_is_at h l : forall rs fp, (forall n t, In (n, Some t) l -> once t) -> reps h rs (pmap lay l) fp -> rel (opt_rel (is_at h)) rs l.
Proof.
  induction l as [|[n w] l IH]; intros rs fp On R; inversion R as [|n0 v0 w0 rs0 ts0 f1 f2 V Rs' D]; subst; [constructor|]. constructor; [split; [reflexivity|]|apply (IH _ f2); [intros m t I; apply (On m); right; exact I|exact Rs']]. cbn [snd]. apply (vrep_is_at h _ _ f1); [|exact V]. intros t ->. apply (On n). left. reflexivity.
Qed.
Lemma crep_is_at h a k fp : once_act a -> crep h k (cmap lay (change_of a)) fp -> crel (opt_rel (is_at h)) k (change_of a).
Proof.
  unfold once_act. destruct (change_of a) as [l|o]; intros On C.
  - cbn [cmap] in C. inversion C as [l0 k0 f0 R| | | | | |]; subst. constructor. exact (reps_is_at h l l0 fp On R).
  - assert (Q : forall v w : option thing, v = w -> (forall t, w = Some t -> In t (given o)) -> forall t, v = Some t -> once t) by (intros v w -> Hw t Et; apply On, Hw, Et).
    destruct o as [n v|n [v|]|n v|n v|n|b|n|n|n| |j|n| ]; cbn [cmap option_map] in C; inversion C as [|k0 v0 w0 f0 V|k0 v0 w0 f0 V|k0 v0 w0 f0 V|k0 v0 w0 f0 V|k0|o1 o2 I1 I2]; subst; try discriminate I2.
    all: try (apply crel_idle; first [assumption|reflexivity]).
    all: try (constructor; apply (vrep_is_at h _ _ fp); [|exact V]; intros t ->; apply On; left; reflexivity).
    apply crel_del.
Qed.
Lemma crep_frame h h' k c fp : crep h k c fp -> (forall x, In x fp -> nth_error h' x = nth_error h x) -> crep h' k c fp.
Proof.
  intros C F. destruct C as [l m fv L|n v w fv V|n v w fv V|n v w fv V|n v w fv V|n|o o' I1 I2]; constructor; try assumption; first [apply (reps_frame h)|apply (vrep_frame h)]; assumption.
Qed.
Lemma nth_ext_all {A} : forall l k : list A, (forall j, nth_error l j = nth_error k j) -> l = k.
Proof.
  induction l as [|a l IH]; intros [|b k] H; [reflexivity|discriminate (H 0%nat)|discriminate (H 0%nat)|]. f_equal; [pose proof (H 0%nat) as E; injection E; auto|apply IH; intros j; exact (H (Datatypes.S j))].
Qed.
(** The object itself, changed *)
Lemma changed h h' i q a (f : obj nat -> obj nat) : is_at h i q -> h' = replace_nth i f h ->
  (forall o, nth_error h i = Some o -> exists c q', own (f o) = bare q' /\ ptrs (f o) = change_ptrs c (ptrs o) /\ parts q' = change_ptrs (change_of a) (parts q) /\ q' = act_on a q /\ crel (opt_rel (is_at h')) c (change_of a)) ->
  is_at h' i (act_on a q).
Proof.
  intros A Eh Hf. pose proof (fun ns => is_at_finite h i q ns A) as Fin. inversion A as [r0 o t0 E O Nd P]; subst r0 t0. destruct (Hf o E) as [c [q' [O' [P' [Pq [-> C]]]]]].
  apply (is_at_obj h' i (f o)); [rewrite Eh, replace_at, Nat.eqb_refl, E; reflexivity|exact O'|rewrite Pq; apply change_names; exact Nd|]. rewrite P', Pq. apply rel_change; [exact C|].
  apply (rel_impl (opt_rel (is_at h))); [|exact P]. intros n v w I1 I2 V. destruct V as [|r u V]; constructor.
  apply (untouched h h' i); [intros j D _; rewrite Eh, replace_at; apply Nat.eqb_neq in D; rewrite D; reflexivity|exact V|]. intros ns F.
  assert (X : n :: ns = []); [|discriminate X]. apply Fin. cbn [h_follow]. unfold h_get. rewrite E, (in_get n (Some r) (ptrs o)); [exact F| |exact I1]. rewrite (rel_names _ _ _ P). exact Nd.
Qed.
Lemma do_changed h a i q : is_at h i q -> once_act a -> is_at (h_act a i h) i (act_on a q).
Proof.
  intros A On. unfold h_act. pose proof (make_change_rep (change_of a) h) as M. destruct (make_change (change_of a) h) as [h1 k]. destruct M as [fp [C [[e ->] Fr]]].
  assert (A1 : is_at (h ++ e) i q) by exact (is_at_extends h _ i q (extends_app h e) A).
  destruct (fits a q) eqn:Fi.
  - apply (changed (h ++ e) _ i q a (change_obj a k) A1 eq_refl). intros o E. inversion A1 as [r0 o0 t0 E' O Nd P]; subst. rewrite E in E'. injection E' as <-. exists k, (act_on a q). unfold change_obj. rewrite O, fits_bare, Fi. cbn [own ptrs].
    split; [symmetry; apply act_bare; exact Fi|]. split; [reflexivity|]. split; [apply act_parts; exact Fi|]. split; [reflexivity|]. apply (crep_is_at _ a k fp On). apply (crep_frame (h ++ e)); [exact C|].
    intros x Hx. rewrite replace_at. assert (D : x <> i) by (pose proof (Fr x Hx) as B; apply is_at_in in A; lia). apply Nat.eqb_neq in D. rewrite D. reflexivity.
  - rewrite (not_fits a q Fi). replace (replace_nth i (change_obj a k) (h ++ e)) with (h ++ e); [exact A1|]. apply nth_ext_all. intros j. rewrite replace_at. destruct (Nat.eqb j i) eqn:Ej; [|reflexivity]. apply Nat.eqb_eq in Ej. subst j. inversion A1 as [r0 o t0 E O Nd P]; subst. rewrite E. cbn [option_map]. f_equal. unfold change_obj. rewrite O, fits_bare, Fi. reflexivity.
Qed.

(** ** Calls given an object that is there *)

Lemma give_pointed (P : nat -> thing -> Prop) g w u a ry : give_act g w u = Some a -> P ry u -> crel (opt_rel P) (point_to ry (change_of a)) (change_of a).
Proof.
  intros G H. assert (H' : opt_rel P (Some ry) (Some u)) by (constructor; exact H).
  destruct g as [f|k|k|k|k]; cbn [give_act] in G; destruct w as [p|l|[b|b x fs c s]|e|x|d|l|m|m|m|m|m|m|m]; try discriminate G; destruct u as [p'|l'|d'|e'|x'|d'|l'|m'|m'|m'|m'|m'|m'|m']; cbn [give_field give_entry] in G; try discriminate G.
  all: try (destruct f; try discriminate G).
  all: try (destruct s; try discriminate G).
  all: injection G as <-; cbn; constructor; try exact H'.
  all: repeat (constructor; [split; [reflexivity|first [exact H'|constructor]]|]); constructor.
Qed.
Lemma give_bare g w u : match give_act g (bare w) (bare u), give_act g w u with
  | Some a, Some a' => fits a' w = true /\ fits a (bare w) = true /\ bare (act_on a (bare w)) = bare (act_on a' w) /\ (forall ry, point_to ry (change_of a) = point_to ry (change_of a'))
  | None, None => True | _, _ => False end.
Proof.
  destruct g as [f|k|k|k|k]; destruct w as [p|l|[b|b x fs c s]|e|x|d|l|m|m|m|m|m|m|m]; destruct u as [p'|l'|[b'|b' x' fs' c' s']|e'|x'|d'|l'|m'|m'|m'|m'|m'|m'|m']; cbn [bare give_act give_field give_entry]; try exact I.
  all: try (destruct f; try exact I).
  all: try (destruct s; try exact I).
  all: repeat split.
Qed.
Lemma give_changed h g i ry q u : is_at h i q -> is_at h ry u -> (forall ns, h_follow h ns ry <> Some i) ->
  match give_act g q u with Some a => is_at (h_give g i ry h) i (act_on a q) | None => h_give g i ry h = h end.
Proof.
  intros A B Y. pose proof (give_bare g q u) as G. inversion A as [r0 o t0 E O Nd P]; subst r0 t0. inversion B as [r0 oy t0 Ey Oy Ndy Py]; subst r0 t0. unfold h_give. rewrite E, Ey, O, Oy.
  destruct (give_act g (bare q) (bare u)) as [a|] eqn:Ga, (give_act g q u) as [a'|] eqn:Ga'; try contradiction; [|reflexivity]. destruct G as [F' [F [Bb Pt]]].
  apply (changed h _ i q a' (change_obj a (point_to ry (change_of a))) A eq_refl). intros o' E'. rewrite E in E'. injection E' as <-. exists (point_to ry (change_of a)), (act_on a' q). unfold change_obj. rewrite O, F. cbn [own ptrs].
  split; [exact Bb|]. split; [reflexivity|]. split; [apply act_parts; exact F'|]. split; [reflexivity|]. rewrite Pt. apply (give_pointed _ g q u a' ry Ga').
  apply (untouched h _ i); [intros j D _; rewrite replace_at; apply Nat.eqb_neq in D; rewrite D; reflexivity|exact B|exact Y].
Qed.
Lemma give_off h g i ry j : j <> i -> nth_error (h_give g i ry h) j = nth_error h j.
Proof.
  intros D. unfold h_give. destruct (nth_error h i); [|reflexivity]. destruct (nth_error h ry); [|reflexivity]. destruct (give_act g _ _); [|reflexivity]. rewrite replace_at. apply Nat.eqb_neq in D. rewrite D. reflexivity.
Qed.
Lemma give_length h g i ry : List.length (h_give g i ry h) = List.length h.
Proof. unfold h_give. destruct (nth_error h i); [|reflexivity]. destruct (nth_error h ry); [|reflexivity]. destruct (give_act g _ _); [|reflexivity]. apply replace_length. Qed.
Lemma act_off h a i j : j <> i -> (j < List.length h)%nat -> nth_error (h_act a i h) j = nth_error h j.
Proof.
  intros D L. unfold h_act. destruct (call_ext (change_of a) h) as [e He]. destruct (make_change (change_of a) h) as [h1 k]. cbn [fst] in He. subst h1. rewrite replace_at. apply Nat.eqb_neq in D. rewrite D. apply nth_error_app1. exact L.
Qed.
Lemma act_length h a i : (List.length h <= List.length (h_act a i h))%nat.
Proof. unfold h_act. destruct (call_ext (change_of a) h) as [e He]. destruct (make_change (change_of a) h) as [h1 k]. cbn [fst] in He. subst h1. rewrite replace_length, app_length. lia. Qed.

Lemma sound_act h a i : sound h -> once_act a -> sound (h_act a i h).
Proof.
  intros Sh On. unfold h_act. pose proof (makes_change a h On Sh) as M. destruct (make_change (change_of a) h) as [h1 k]. destruct M as [S1 [_ [_ C]]]. apply sound_change; [exact S1|]. apply (crel_impl (opt_rel (is_at h1))); [|exact C]. intros v w. apply opt_impl. intros r u. apply is_at_typed.
Qed.
Lemma sound_give h g i ry : sound h -> sound (h_give g i ry h).
Proof.
  intros Sh. unfold h_give. destruct (nth_error h i) as [o|] eqn:E; [|exact Sh]. destruct (nth_error h ry) as [oy|] eqn:Ey; [|exact Sh]. destruct (give_act g (own o) (own oy)) as [a|] eqn:G; [|exact Sh]. apply sound_change; [exact Sh|]. apply (give_pointed _ g (own o) (own oy) a ry G). exists oy. split; [exact Ey|reflexivity].
Qed.

(** ** Programs *)

Definition good (s : state) : Prop := sound (fst s) /\ forall x r, snd s x = Some r -> (r < List.length (fst s))%nat.
Lemma follow_in h : sound h -> forall ns r i, (r < List.length h)%nat -> h_follow h ns r = Some i -> (i < List.length h)%nat.
Proof.
  intros Sh. induction ns as [|n ns IH]; intros r i L F; cbn [h_follow] in F; [congruence|]. destruct (h_get h n r) as [c|] eqn:G; [|discriminate F]. apply (IH c i); [|exact F]. unfold h_get in G. destruct (nth_error h r) as [o|] eqn:E; [|discriminate G]. destruct (Sh r o E) as [w [_ [_ P]]].
  destruct (sget name_eqb n (ptrs o)) as [v|] eqn:Eg; [|discriminate G]. subst v. apply get_in in Eg. destruct (rel_in _ _ _ _ _ P Eg) as [u [_ T]]. inversion T as [|a b [o' [Eo _]]]; subst. apply nth_error_Some. congruence.
Qed.
Lemma step_good s u : good s -> suse_once u -> good (s_step s u).
Proof.
  destruct s as [h env]. intros [Sh En] On. cbn [fst snd] in *. destruct u as [x t|y x ns|x ns a|x ns g y]; cbn [s_step suse_once] in *.
  - pose proof (makes_once t On h Sh) as M. destruct (make (lay t) h) as [h1 r]. destruct M as [S1 [_ [L1 A1]]]. split; [exact S1|]. cbn [fst snd]. intros z j. unfold bind_var. destruct (Nat.eqb z x); intros E; [injection E as <-; exact (is_at_in _ _ _ A1)|]. specialize (En z j E). lia.
  - split; [exact Sh|]. cbn [fst snd]. intros z j. destruct (Nat.eqb z y); [|apply En]. unfold found. cbn [fst snd]. destruct (env x) as [r|] eqn:E; [|discriminate]. intros F. exact (follow_in h Sh ns r j (En x r E) F).
  - destruct (found (h, env) x ns) as [i|]; [|split; assumption]. split; [apply sound_act; assumption|]. cbn [fst snd]. intros z j E. specialize (En z j E). pose proof (act_length h a i). lia.
  - destruct (found (h, env) x ns) as [i|]; [|split; assumption]. destruct (env y) as [r|]; [|split; assumption]. split; [apply sound_give; assumption|]. cbn [fst snd]. intros z j E. rewrite give_length. exact (En z j E).
Qed.
Lemma program_good us : Forall suse_once us -> good (smemory us).
Proof.
  intros F. unfold smemory. assert (G0 : good ([], fun _ => None)) by (split; [intros j o E; destruct j; discriminate E|intros x r E; discriminate E]). revert G0. generalize (@nil (obj nat), fun _ : nat => @None nat) as s. induction F as [|u us Hu F IH]; intros s G; [exact G|]. cbn [fold_left]. apply IH. apply step_good; assumption.
Qed.
Lemma smemory_snoc us u : smemory (us ++ [u]) = s_step (smemory us) u.
Proof. unfold smemory. rewrite fold_left_app. reflexivity. Qed.
Lemma shows_at s x t : good s -> shows s x t <-> exists r, snd s x = Some r /\ is_at (fst s) r t.
Proof.
  intros [Sh _]. split; intros [r [E H]]; exists r; (split; [exact E|]).
  - apply whole_at; [exact Sh|apply H].
  - split; [apply is_at_looks|apply is_at_whole]; exact H.
Qed.
(** What is held shows, or is endless. *)
Lemma shows_or_endless us x r : Forall suse_once us -> snd (smemory us) x = Some r -> (exists t, shows (smemory us) x t) \/ endless (smemory us) x.
Proof.
  intros On E. pose proof (program_good us On) as G. destruct (finite_or_circular (fst (smemory us)) r (proj1 G) (proj2 G x r E)) as [[t A]|[ns [i [n [ms [F C]]]]]]; [left; exists t; apply (shows_at _ _ _ G); exists r; split; assumption|].
  right. exists ns, i, n, ms. unfold found. rewrite E. split; assumption.
Qed.
Lemma endless_unsaved us x r : Forall suse_once us -> endless (smemory us) x -> snd (smemory us) x = Some r -> whole (fst (smemory us)) r = None.
Proof.
  intros On [ns [i [n [ms [F C]]]]] E. destruct (whole (fst (smemory us)) r) as [t|] eqn:W; [|reflexivity]. exfalso. apply whole_at in W; [|apply program_good; exact On]. unfold found in F. rewrite E in F. apply (circular_not (fst (smemory us)) r t); [|exact W]. exists ns, i, n, ms. split; assumption.
Qed.
Lemma one_object us x y ns ms i t u : Forall suse_once us -> found (smemory us) x ns = Some i -> found (smemory us) y ms = Some i -> shows (smemory us) x t -> shows (smemory us) y u -> exists q, follow ns t = Some q /\ follow ms u = Some q.
Proof.
  intros On Fx Fy Sx Sy. pose proof (program_good us On) as G. apply (shows_at _ _ _ G) in Sx as [r [Ex Ax]]. apply (shows_at _ _ _ G) in Sy as [r' [Ey Ay]]. unfold found in *. rewrite Ex in Fx. rewrite Ey in Fy.
  destruct (is_at_reach _ _ _ _ _ Ax Fx) as [q [Fq Aq]]. destruct (is_at_reach _ _ _ _ _ Ay Fy) as [q' [Fq' Aq']]. exists q. split; [exact Fq|]. rewrite (is_at_same _ _ _ _ Aq Aq'). exact Fq'.
Qed.

(** One step that changes the object at [i] and nothing else that was there *)
Definition leads_to (s : state) (y : nat) (i : nat) (ms : list name) : Prop := found s y ms = Some i.
Lemma step_untouched s s' i y t : good s -> good s' -> snd s' = snd s -> (forall j, j <> i -> (j < List.length (fst s))%nat -> nth_error (fst s') j = nth_error (fst s) j) -> shows s y t -> (forall ms, found s y ms <> Some i) -> shows s' y t.
Proof.
  intros G G' Env Fr Sy Y. apply (shows_at _ _ _ G) in Sy as [r [E A]]. apply (shows_at _ _ _ G'). exists r. split; [rewrite Env; exact E|]. apply (untouched (fst s) (fst s') i Fr); [exact A|]. intros ns F. apply (Y ns). unfold found. rewrite E. exact F.
Qed.
Lemma step_edited s s' i q a y t : good s -> good s' -> snd s' = snd s -> (forall j, j <> i -> (j < List.length (fst s))%nat -> nth_error (fst s') j = nth_error (fst s) j) -> is_at (fst s) i q -> is_at (fst s') i (act_on a q) -> shows s y t ->
  exists t', shows s' y t' /\ edited_at_all (fun ms => found s y ms = Some i) a t t'.
Proof.
  intros G G' Env Fr Aq Aq' Sy. apply (shows_at _ _ _ G) in Sy as [r [E A]].
  destruct (shared (fst s) (fst s') i Fr q (act_on a q) Aq Aq' (act_sort a q) (size t) t r (le_n _) A) as [t' [A' [_ [S1 [S2 S3]]]]].
  exists t'. split; [apply (shows_at _ _ _ G'); exists r; split; [rewrite Env; exact E|exact A']|]. unfold found. rewrite E. split; [|split].
  - intros ms p F Fp. destruct (is_at_reach _ _ _ _ _ A F) as [p' [Fp' Ap']]. rewrite Fp in Fp'. injection Fp' as <-. rewrite (is_at_same _ _ _ _ Ap' Aq). exact (S1 ms F).
  - exact S2.
  - exact S3.
Qed.
(** The way to it stays. *)
Lemma follow_same h h' i t : (forall j, j <> i -> (j < List.length h)%nat -> nth_error h' j = nth_error h j) -> forall ms r, is_at h r t -> h_follow h ms r = Some i -> h_follow h' ms r = Some i.
Proof.
  intros Fr ms. revert t. induction ms as [|n ms IH]; intros t r A F; [exact F|]. destruct (Nat.eq_dec r i) as [->|D]; [discriminate (is_at_finite h i t _ A F)|].
  cbn [h_follow] in *. pose proof (is_at_get h r t n A) as G. destruct (h_get h n r) as [c|] eqn:Eg; [|discriminate F]. destruct (get_part n t) as [u|]; [|discriminate G]. destruct G as [c' [Ec Au]]. injection Ec as <-.
  assert (Eh : h_get h' n r = Some c) by (unfold h_get in *; rewrite Fr by (exact D || exact (is_at_in _ _ _ A)); exact Eg). rewrite Eh. exact (IH u c Au F).
Qed.

(** ** Where the given object is *)

Lemma get_replaced {A} n (v : A) ps : shas name_eqb n ps = true -> sget name_eqb n (sreplace name_eqb n v ps) = Some v.
Proof.
  intros H. rewrite get_replace, name_eqb_refl. unfold shas, sget in *. induction ps as [|[m w] ps IH]; [discriminate H|]. cbn [existsb find fst] in *. destruct (name_eqb m n); [reflexivity|exact (IH H)].
Qed.
Lemma get_put {A} n (v : A) ps : sget name_eqb n (sput name_eqb n v ps) = Some v.
Proof.
  unfold sput, sdelete, sget. induction ps as [|[m w] ps IH]; [cbn; rewrite name_eqb_refl; reflexivity|]. cbn [filter]. rewrite other_pair. destruct (name_eqb m n) eqn:E; cbn [negb]; [exact IH|]. cbn [app find fst]. rewrite E. exact IH.
Qed.
Lemma follow_extends h h' : extends h h' -> forall ms r u, is_at h r u -> h_follow h' ms r = h_follow h ms r.
Proof.
  intros X. induction ms as [|n ms IH]; intros r u A; [reflexivity|]. cbn [h_follow]. assert (G : h_get h' n r = h_get h n r) by (unfold h_get; rewrite X by exact (is_at_in _ _ _ A); reflexivity). rewrite G. pose proof (is_at_get h r u n A) as Gp. destruct (get_part n u) as [p|]; [|rewrite Gp; reflexivity]. destruct Gp as [c [-> Ac]]. exact (IH c p Ac).
Qed.
Lemma give_slot (P : nat -> thing -> Prop) g q u a ry (rs : list (name * option nat)) : give_act g q u = Some a -> takes g q = true -> rel (opt_rel P) rs (parts q) ->
  sget name_eqb (slot g) (change_ptrs (point_to ry (change_of a)) rs) = Some (Some ry).
Proof.
  intros G Tk R. pose proof (rel_names _ _ _ R) as N. destruct g as [f|k|k|k|k].
  - cbn [give_act slot] in *. clear Tk. destruct q as [p|l|[b|b x fs c s]|e|x|d|l|m|m|m|m|m|m|m]; try discriminate G; destruct u as [p'|l'|d'|e'|x'|d'|l'|m'|m'|m'|m'|m'|m'|m']; cbn [give_field] in G; try discriminate G.
    all: destruct f; try discriminate G.
    all: try (destruct s; try discriminate G).
    all: injection G as <-; cbn [parts map fst spec_parts app] in N; repeat (destruct rs as [|[? ?] rs]; try discriminate N; cbn [map fst] in N; try (injection N as ? N; subst)); reflexivity.
  - destruct q as [p|l|[b|b x fs c s]|e|x|d|l|m|m|m|m|m|m|m]; try discriminate G; destruct u as [p'|l'|d'|e'|x'|d'|l'|m'|m'|m'|m'|m'|m'|m']; try discriminate G; injection G as <-; cbn [change_of op_names point_to option_map change_ptrs sstep slot]; apply get_put.
  - destruct q as [p|l|[b|b x fs c s]|e|x|d|l|m|m|m|m|m|m|m]; try discriminate G; destruct u as [p'|l'|d'|e'|x'|d'|l'|m'|m'|m'|m'|m'|m'|m']; try discriminate G; injection G as <-; cbn [change_of op_names point_to option_map change_ptrs sstep slot]; apply get_put.
  - destruct (shas name_eqb (NKey k) rs) eqn:Hh.
    + destruct q as [p|l|[b|b x fs c s]|e|x|d|l|m|m|m|m|m|m|m]; try discriminate G; destruct u as [p'|l'|d'|e'|x'|d'|l'|m'|m'|m'|m'|m'|m'|m']; try discriminate G; injection G as <-; cbn [change_of op_names point_to option_map change_ptrs sstep slot]; rewrite Hh; apply get_replaced; exact Hh.
    + destruct q as [p|l|[b|b x fs c s]|e|x|d|l|m|m|m|m|m|m|m]; try discriminate G; destruct u as [p'|l'|d'|e'|x'|d'|l'|m'|m'|m'|m'|m'|m'|m']; try discriminate G; injection G as <-; cbn [change_of op_names point_to option_map change_ptrs sstep slot]; rewrite Hh; apply get_put.
  - cbn [takes] in Tk. rewrite <- (has_names (NKey k) rs (parts q) N) in Tk.
    destruct q as [p|l|[b|b x fs c s]|e|x|d|l|m|m|m|m|m|m|m]; try discriminate G; destruct u as [p'|l'|d'|e'|x'|d'|l'|m'|m'|m'|m'|m'|m'|m']; try discriminate G; injection G as <-; cbn [change_of op_names point_to option_map change_ptrs sstep slot]; apply get_replaced; exact Tk.
Qed.
Lemma give_get h g i ry q u a : is_at h i q -> is_at h ry u -> give_act g q u = Some a -> takes g q = true -> h_get (h_give g i ry h) (slot g) i = Some ry.
Proof.
  intros A B G Tk. pose proof (give_bare g q u) as Gb. inversion A as [r0 o t0 E O Nd P]; subst r0 t0. inversion B as [r0 oy t0 Ey Oy Ndy Py]; subst r0 t0. unfold h_get, h_give. rewrite E, Ey, O, Oy. rewrite G in Gb.
  destruct (give_act g (bare q) (bare u)) as [a0|] eqn:G0; [|contradiction]. destruct Gb as [_ [F [_ Pt]]]. rewrite replace_at, Nat.eqb_refl, E. cbn [option_map]. unfold change_obj. rewrite O, F. cbn [ptrs]. rewrite Pt, (give_slot (is_at h) g q u a ry (ptrs o) G Tk P). reflexivity.
Qed.

(** ** The theorems *)

Section Steps.
  Variable us : list suse.
  Hypothesis On : Forall suse_once us.
  Let s := smemory us.
  Local Lemma gs : good s. Proof. exact (program_good us On). Qed.
  Lemma do_env x ns a : snd (s_step s (SDo x ns a)) = snd s.
  Proof. destruct s as [h env]. cbn [s_step]. destruct (found (h, env) x ns); reflexivity. Qed.
  Lemma give_env x ns g y : snd (s_step s (SGive x ns g y)) = snd s.
  Proof. destruct s as [h env]. cbn [s_step]. destruct (found (h, env) x ns); [|reflexivity]. destruct (env y); reflexivity. Qed.
  Lemma do_heap x ns a i : found s x ns = Some i -> fst (s_step s (SDo x ns a)) = h_act a i (fst s).
  Proof. destruct s as [h env]. cbn [s_step]. intros ->. reflexivity. Qed.
  Lemma give_heap x ns g y i r : found s x ns = Some i -> snd s y = Some r -> fst (s_step s (SGive x ns g y)) = h_give g i r (fst s).
  Proof. destruct s as [h env]. cbn [s_step snd fst]. intros -> ->. reflexivity. Qed.

  Lemma do_everywhere x ns a i y t : once_act a -> found s x ns = Some i -> shows s y t ->
    exists t', shows (smemory (us ++ [SDo x ns a])) y t' /\ edited_at_all (fun ms => found s y ms = Some i) a t t' /\ forall ms, found s y ms = Some i -> found (smemory (us ++ [SDo x ns a])) y ms = Some i.
  Proof.
    intros Oa F Sy. rewrite smemory_snoc. fold s. set (s' := s_step s (SDo x ns a)). assert (G' : good s') by exact (step_good s (SDo x ns a) gs Oa). assert (Env : snd s' = snd s) by apply do_env.
    assert (Fr : forall j, j <> i -> (j < List.length (fst s))%nat -> nth_error (fst s') j = nth_error (fst s) j) by (intros j; unfold s'; rewrite (do_heap x ns a i F); apply act_off).
    pose proof (proj1 (shows_at s y t gs) Sy) as [r [E A]].
    assert (Stay : forall ms, found s y ms = Some i -> found s' y ms = Some i) by (intros ms; unfold found; rewrite Env, E; exact (follow_same (fst s) (fst s') i t Fr ms r A)).
    destruct (finite_or_circular (fst s) i (proj1 gs)) as [[q Aq]|C].
    - unfold found in F. destruct (snd s x) as [rx|] eqn:Ex; [|discriminate F]. exact (follow_in _ (proj1 gs) ns rx i (proj2 gs x rx Ex) F).
    - destruct (step_edited s s' i q a y t gs G' Env Fr Aq) as [t' [S' Ed]]; [unfold s'; rewrite (do_heap x ns a i F); apply do_changed; assumption|exact Sy|]. exists t'. split; [exact S'|]. split; [exact Ed|exact Stay].
    - assert (Y : forall ms, found s y ms <> Some i).
      { intros ms Fm. unfold found in Fm. rewrite E in Fm. destruct (is_at_reach _ _ _ _ _ A Fm) as [q [_ Aq]]. exact (circular_not _ _ _ C Aq). }
      exists t. split; [exact (step_untouched s s' i y t gs G' Env Fr Sy Y)|]. split; [|exact Stay]. split; [|split].
      + intros ms q Fm. destruct (Y ms Fm).
      + intros ms _. reflexivity.
      + intros ms q _ Fq. exists q. repeat split. exact Fq.
  Qed.
  Lemma give_everywhere x ns g z i r t0 u y t : found s x ns = Some i -> snd s z = Some r -> shows s x t0 -> shows s z u -> (forall ms, found s z ms <> Some i) -> shows s y t ->
    let s' := smemory (us ++ [SGive x ns g z]) in
    exists t', shows s' y t' /\ (forall ms, found s y ms = Some i -> found s' y ms = Some i) /\
      match follow ns t0 with
      | Some q => match give_act g q u with
                  | Some a => edited_at_all (fun ms => found s y ms = Some i) a t t' /\ (takes g q = true -> forall ms, found s y ms = Some i -> found s' y (ms ++ [slot g]) = Some r)
                  | None => t' = t
                  end
      | None => False
      end.
  Proof.
    intros F Ez Sx Sz Nz Sy s0. unfold s0. rewrite smemory_snoc. fold s. set (s' := s_step s (SGive x ns g z)). assert (G' : good s') by exact (step_good s (SGive x ns g z) gs I). assert (Env : snd s' = snd s) by apply give_env.
    assert (Fr : forall j, j <> i -> (j < List.length (fst s))%nat -> nth_error (fst s') j = nth_error (fst s) j) by (intros j D _; unfold s'; rewrite (give_heap x ns g z i r F Ez); apply give_off; exact D).
    pose proof (proj1 (shows_at s y t gs) Sy) as [ry [Ey Ay]]. pose proof (proj1 (shows_at s x t0 gs) Sx) as [rx [Ex Ax]]. pose proof (proj1 (shows_at s z u gs) Sz) as [rz [Ez' Az]]. rewrite Ez in Ez'. injection Ez' as <-.
    assert (Stay : forall ms, found s y ms = Some i -> found s' y ms = Some i) by (intros ms; unfold found; rewrite Env, Ey; exact (follow_same (fst s) (fst s') i t Fr ms ry Ay)).
    assert (Fx : h_follow (fst s) ns rx = Some i) by (unfold found in F; rewrite Ex in F; exact F). destruct (is_at_reach _ _ _ _ _ Ax Fx) as [q [Fq Aq]]. rewrite Fq.
    assert (Yz : forall ms, h_follow (fst s) ms r <> Some i) by (intros ms Fm; apply (Nz ms); unfold found; rewrite Ez; exact Fm).
    pose proof (give_changed (fst s) g i r q u Aq Az Yz) as Gc. rewrite <- (give_heap x ns g z i r F Ez) in Gc. fold s' in Gc. destruct (give_act g q u) as [a|] eqn:Ga.
    - destruct (step_edited s s' i q a y t gs G' Env Fr Aq Gc Sy) as [t' [S' Ed]]. exists t'. split; [exact S'|]. split; [exact Stay|]. split; [exact Ed|]. intros Tk ms Fm. specialize (Stay ms Fm). unfold found in Stay |- *. rewrite Env, Ey in Stay |- *. rewrite h_follow_app, Stay. cbn [h_follow].
      unfold s'. rewrite (give_heap x ns g z i r F Ez), (give_get (fst s) g i r q u a Aq Az Ga Tk). reflexivity.
    - exists t. split; [|split; [exact Stay|reflexivity]]. apply (shows_at s' y t G'). exists ry. split; [rewrite Env; exact Ey|]. rewrite Gc. exact Ay.
  Qed.
  Lemma give_cycle x ns g z i t0 q u a ms : found s x ns = Some i -> shows s x t0 -> shows s z u -> found s z ms = Some i -> follow ns t0 = Some q -> give_act g q u = Some a -> takes g q = true ->
    endless (smemory (us ++ [SGive x ns g z])) x.
  Proof.
    intros F Sx Sz Fz Fq Ga Tk. rewrite smemory_snoc. fold s. set (s' := s_step s (SGive x ns g z)). pose proof (proj1 (shows_at s x t0 gs) Sx) as [rx [Ex Ax]]. pose proof (proj1 (shows_at s z u gs) Sz) as [r [Ez Az]]. assert (Env : snd s' = snd s) by apply give_env.
    assert (Fr : forall j, j <> i -> (j < List.length (fst s))%nat -> nth_error (fst s') j = nth_error (fst s) j) by (intros j D _; unfold s'; rewrite (give_heap x ns g z i r F Ez); apply give_off; exact D).
    assert (Fx : h_follow (fst s) ns rx = Some i) by (unfold found in F; rewrite Ex in F; exact F). destruct (is_at_reach _ _ _ _ _ Ax Fx) as [q' [Fq' Aq]]. rewrite Fq in Fq'. injection Fq' as <-.
    unfold found in Fz. rewrite Ez in Fz. exists ns, i, (slot g), ms. split.
    - unfold found. rewrite Env, Ex. exact (follow_same _ _ i t0 Fr ns rx Ax Fx).
    - cbn [h_follow]. unfold s'. rewrite (give_heap x ns g z i r F Ez), (give_get (fst s) g i r q u a Aq Az Ga Tk). rewrite <- (give_heap x ns g z i r F Ez). exact (follow_same _ _ i u Fr ms r Az Fz).
  Qed.
  (** Calls on other objects do not show. *)
  Lemma give_elsewhere x ns g z i y t : found s x ns = Some i -> shows s y t -> (forall ms, found s y ms <> Some i) -> shows (smemory (us ++ [SGive x ns g z])) y t.
  Proof.
    intros F Sy Y. rewrite smemory_snoc. fold s. set (s' := s_step s (SGive x ns g z)). assert (G' : good s') by exact (step_good s (SGive x ns g z) gs I). apply (step_untouched s s' i y t gs G' (give_env x ns g z)); [|exact Sy|exact Y].
    intros j D _. unfold s'. destruct (snd s z) as [r|] eqn:Ez; [rewrite (give_heap x ns g z i r F Ez); apply give_off; exact D|]. destruct s as [h env]. cbn [s_step fst snd] in *. rewrite F, Ez. reflexivity.
  Qed.
  Lemma open_new x t : once t -> shows (smemory (us ++ [SOpen x t])) x t /\ forall y u, y <> x -> shows s y u -> shows (smemory (us ++ [SOpen x t])) y u /\ forall ns ms i, found (smemory (us ++ [SOpen x t])) x ns = Some i -> found (smemory (us ++ [SOpen x t])) y ms <> Some i.
  Proof.
    intros Ot. rewrite smemory_snoc. fold s. pose proof gs as [Sh En]. pose proof (step_good s (SOpen x t) gs Ot) as G'. destruct s as [h env] eqn:Es. cbn [s_step fst snd] in *. pose proof (makes_once t Ot h Sh) as M. pose proof (make_rep (lay t) h) as R. destruct (make (lay t) h) as [h1 r]. destruct M as [S1 [X1 [L1 A1]]].
    split; [apply (shows_at _ _ _ G'); exists r; split; [cbn [snd]; apply bind_same|exact A1]|]. intros y u D Sy. apply (shows_at (h, env) y u (conj Sh En)) in Sy as [ry [Ey Ay]]. cbn [fst snd] in *.
    assert (Ey1 : bind_var x r env y = Some ry) by (rewrite bind_other by exact D; exact Ey).
    split; [apply (shows_at _ _ _ G'); exists ry; split; [exact Ey1|exact (is_at_extends h h1 ry u X1 Ay)]|].
    intros ns ms i Fx Fy. unfold found in *. cbn [fst snd] in *. rewrite Ey1 in Fy. rewrite bind_same in Fx. destruct R as [fp [Rp [Ext Fr]]].
    pose proof (rep_follow h1 ns r t fp Rp) as Q. destruct (follow ns t) as [q|]; [|congruence]. destruct Q as [r' [fq [Fr' [Rq Iq]]]]. rewrite Fx in Fr'. injection Fr' as <-. destruct (rep_lay h1 i q fq Rq) as [rs [f [_ [_ [_ ->]]]]]. pose proof (Fr i (Iq i (or_introl eq_refl))) as Big.
    rewrite (follow_extends h h1 X1 ms ry u Ay) in Fy. destruct (is_at_reach _ _ _ _ _ Ay Fy) as [p [_ Ap]]. apply is_at_in in Ap. lia.
  Qed.
  Lemma take_same y x ns t q ms : shows s x t -> follow ns t = Some q ->
    shows (smemory (us ++ [STake y x ns])) y q /\ found (smemory (us ++ [STake y x ns])) y ms = found s x (ns ++ ms).
  Proof.
    intros Sx Fq. rewrite smemory_snoc. fold s. pose proof (step_good s (STake y x ns) gs I) as G'. apply (shows_at s x t gs) in Sx as [r [E A]]. pose proof (is_at_follow (fst s) ns r t A) as Q. rewrite Fq in Q. destruct Q as [r' [F A']].
    destruct s as [h env]. cbn [s_step fst snd] in *. assert (Ey : found (h, env) x ns = Some r') by (unfold found; cbn [fst snd]; rewrite E; exact F). split.
    - apply (shows_at _ _ _ G'). exists r'. cbn [fst snd]. rewrite Nat.eqb_refl. split; [exact Ey|exact A'].
    - unfold found at 1. cbn [fst snd]. rewrite Nat.eqb_refl, Ey. unfold found. cbn [fst snd]. rewrite E, h_follow_app, F. reflexivity.
  Qed.
End Steps.
