(** C79, C80: programs. *)
From Coq Require Import SpecFloat.
From Verif Require Import Base Num OMap OMapSpec Keys Yaml Values Assign Formats Meta Out Xml Example DataType Marshal Doc Api Library Setters Live DeepMore Objects ObjProofs ObjHeap.

(** ** Edits of things *)

Lemma get_replace {A} n (v : A) m ps : sget name_eqb m (sreplace name_eqb n v ps) = if name_eqb m n then option_map (fun _ => v) (sget name_eqb m ps) else sget name_eqb m ps.
Proof.
  unfold sget, sreplace. induction ps as [|[a w] ps IH]; [destruct (name_eqb m n); reflexivity|]. cbn [map find fst]. destruct (name_eqb a n) eqn:En; cbn [fst]; destruct (name_eqb a m) eqn:Em.
  - apply name_eqb_eq in En. apply name_eqb_eq in Em. subst. rewrite name_eqb_refl. reflexivity.
  - exact IH.
  - destruct (name_eqb m n) eqn:E; [|reflexivity]. apply name_eqb_eq in E. apply name_eqb_eq in Em. subst. rewrite name_eqb_refl in En. discriminate En.
  - exact IH.
Qed.
Lemma put_get n q0 q t m : get_part n t = Some q0 -> sort q = sort q0 -> get_part m (put_part n q t) = if name_eqb m n then Some q else get_part m t.
Proof.
  intros E S. unfold get_part at 1. rewrite (put_parts n q0 q t E S), get_replace. destruct (name_eqb m n) eqn:M; [|reflexivity]. apply name_eqb_eq in M. subst m. unfold get_part in E. destruct (sget name_eqb n (parts t)) as [w|]; [reflexivity|discriminate E].
Qed.
Lemma edit_there a : forall ns t q, follow ns t = Some q -> follow ns (edit_at ns a t) = Some (act_on a q).
Proof.
  induction ns as [|n ns IH]; intros t q H; cbn [follow edit_at] in *; [injection H as <-; reflexivity|]. destruct (get_part n t) as [p|] eqn:E; [|discriminate H].
  rewrite (put_get n p _ t n E (edit_sort ns a p)), name_eqb_refl. exact (IH p q H).
Qed.

(** An object is what it has and what its pointers lead to. *)
Lemma entries_keyed {A} (th : A -> thing) (un : thing -> option A) (U : forall a, un (th a) = Some a) m : entries_of un (keyed th m) = ents m.
Proof. unfold entries_of, keyed. induction (ents m) as [|[k v] l IH]; [reflexivity|]. cbn [map flat_map fst snd]. rewrite U. cbn [app]. rewrite IH. reflexivity. Qed.
Lemma slots_indexed l : forall i, slots_of as_doc (indexed ThDoc i l) = l.
Proof. unfold slots_of. induction l as [|d l IH]; intros i; [reflexivity|]. cbn [indexed flat_map snd as_doc app]. rewrite IH. reflexivity. Qed.
Lemma join_map {A} (m : amap string A) : mkMap (ents m) (oord m) = m.
Proof. destruct m; reflexivity. Qed.
Lemma join_parts t : join (bare t) (parts t) = t.
Proof.
  destruct t as [p|l|[b|b x fs c s]|e|x|d|l|m|m|m|m|m|m|m]; try reflexivity.
  - destruct p as [t d v u bp pr mt dc ty tr rt an aa ss sb us rs ex]. destruct dc; reflexivity.
  - destruct l; reflexivity.
  - destruct b; reflexivity.
  - destruct b as [sc k e], x as [dn de an xm rq], c as [df ex exs en]. destruct s as [|u mn mx it|fm|ft mn mx|fm mn mx mu|fm mn mx mu|ps mn mx ad di dv|p mn mx]; destruct xm, ex; try reflexivity; destruct it; reflexivity.
  - destruct e; reflexivity.
  - destruct d; reflexivity.
  - cbn [bare parts join]. rewrite slots_indexed. reflexivity.
  - cbn [bare parts join oord]. rewrite (entries_keyed ThDef as_def (fun _ => eq_refl)), join_map. reflexivity.
  - cbn [bare parts join oord]. rewrite (entries_keyed ThDefs as_defs (fun _ => eq_refl)), join_map. reflexivity.
  - cbn [bare parts join oord]. rewrite (entries_keyed ThEx as_ex (fun _ => eq_refl)), join_map. reflexivity.
  - cbn [bare parts join oord]. rewrite (entries_keyed ThUntyped as_untyped (fun _ => eq_refl)), join_map. reflexivity.
Qed.
Lemma replace_same n (v : option thing) ps : NoDup (map fst ps) -> sget name_eqb n ps = Some v -> sreplace name_eqb n v ps = ps.
Proof.
  unfold sget, sreplace. induction ps as [|[m w] ps IH]; [reflexivity|]. cbn [map fst find]. intros N G. inversion N as [|? ? N1 N2]; subst. destruct (name_eqb m n) eqn:E.
  - cbn in G. injection G as ->. f_equal. apply name_eqb_eq in E. subst m. exact (replace_absent n v ps N1).
  - f_equal. exact (IH N2 G).
Qed.
Lemma put_same n q t : once t -> get_part n t = Some q -> put_part n q t = t.
Proof.
  intros O E. rewrite <- (join_parts (put_part n q t)), put_bare, (put_parts n q q t E eq_refl), replace_same; [apply join_parts|exact (once_names t O)|]. unfold get_part in E. destruct (sget name_eqb n (parts t)) as [w|]; [rewrite E; reflexivity|discriminate E].
Qed.
Lemma edit_nowhere a : forall ns t, once t -> follow ns t = None -> edit_at ns a t = t.
Proof.
  induction ns as [|n ns IH]; intros t O H; cbn [follow edit_at] in *; [discriminate H|]. destruct (get_part n t) as [p|] eqn:E; [|reflexivity]. rewrite (IH p (once_part t n p O E) H). exact (put_same n p t O E).
Qed.
Lemma edit_elsewhere a : forall ns ms t, forked ns ms -> follow ms (edit_at ns a t) = follow ms t.
Proof.
  intros ns ms t Fk. revert t. induction Fk as [n m ns ms D|n ns ms Fk IH]; intros t; cbn [edit_at follow].
  - destruct (get_part n t) as [p|] eqn:E; [|reflexivity]. rewrite (put_get n p _ t m E (edit_sort ns a p)), name_eqb_neq by (intros ->; apply D; reflexivity). reflexivity.
  - destruct (get_part n t) as [p|] eqn:E; [|rewrite E; reflexivity]. rewrite (put_get n p _ t n E (edit_sort ns a p)), name_eqb_refl. exact (IH p).
Qed.
(** On the way to the place: nothing but the place is another. *)
Lemma edit_above a : forall ns m ms t p, follow ns t = Some p -> exists p', follow ns (edit_at (ns ++ m :: ms) a t) = Some p' /\ bare p' = bare p /\ map fst (parts p') = map fst (parts p).
Proof.
  induction ns as [|n ns IH]; intros m ms t p H; cbn [follow edit_at app] in *.
  - injection H as <-. destruct (get_part m t) as [q|] eqn:E; [|exists t; repeat split]. exists (put_part m (edit_at ms a q) t). split; [reflexivity|]. split; [apply put_bare|]. rewrite (put_parts m q _ t E (edit_sort ms a q)). apply replace_names.
  - destruct (get_part n t) as [q|] eqn:E; [|discriminate H]. rewrite (put_get n q _ t n E (edit_sort _ a q)), name_eqb_refl. exact (IH m ms q p H).
Qed.

(** ** All of an object *)

Lemma rep_size h : (forall r t fp, rep h r t fp -> List.length fp = tree_size t /\ NoDup fp).
Proof.
  refine (rep_i h (fun r t fp _ => List.length fp = tree_size t /\ NoDup fp) (fun rs ts fp _ => List.length fp = trees_size ts /\ NoDup fp)
            (fun v w fp _ => List.length fp = match w with Some t => tree_size t | None => 0 end /\ NoDup fp) _ _ _ _ _).
  - intros r o rs ts fp _ _ [L N] Hr. rewrite tree_size_eq. cbn [List.length]. split; [rewrite L; reflexivity|constructor; assumption].
  - split; [reflexivity|constructor].
  - intros n v w rs ts f g _ [L1 N1] _ [L2 N2] D. rewrite app_length, L1, L2. split; [destruct w; reflexivity|]. clear -N1 N2 D. induction f as [|x f IH]; [exact N2|]. inversion N1 as [|? ? A B]; subst. cbn [app]. constructor.
    + intros X. apply in_app_or in X as [X|X]; [exact (A X)|exact (D x (or_introl eq_refl) X)].
    + apply IH; [exact B|]. intros y H1 H2. exact (D y (or_intror H1) H2).
  - split; [reflexivity|constructor].
  - intros r t f _ H. exact H.
Qed.
Lemma whole_rep h : forall N t r fp, tree_size (lay t) <= N -> rep h r (lay t) fp -> whole_from N h r = Some t.
Proof.
  induction N as [|N IH]; intros t r fp S R; rewrite lay_eq, tree_size_eq in S; [lia|]. destruct (rep_lay h r t fp R) as [rs [f [Hn [Rs _]]]]. cbn [whole_from]. rewrite Hn. cbn [ptrs own].
  assert (W : whole_all (whole_from N h) rs = Some (parts t)).
  { apply le_S_n in S. revert S. revert rs f Rs Hn. intros rs f Rs _. clear fp R. revert rs f Rs. clear -IH. intros rs f Rs S. revert rs f Rs S. change (lay_all (parts t)) with (pmap lay (parts t)). induction (parts t) as [|[n w] ps IHp]; intros rs f Rs S; inversion Rs as [|? v ? rs' ? f1 f2 V Rs' D]; subst; [reflexivity|].
    change (pmap lay ((n, w) :: ps)) with ((n, option_map lay w) :: pmap lay ps) in S. cbn [trees_size fold_right snd] in S. fold (trees_size (pmap lay ps)) in S.
    destruct w as [q|]; cbn [option_map] in *; inversion V as [|r' ? ? Rq]; subst; cbn [whole_all].
    - rewrite (IH q r' f1); [|lia|exact Rq]. rewrite (IHp rs' f2 Rs'); [reflexivity|lia].
    - rewrite (IHp rs' f2 Rs'); [reflexivity|lia]. }
  rewrite W, join_parts. reflexivity.
Qed.
Lemma rep_whole h r t fp : rep h r (lay t) fp -> (forall x, In x fp -> x < List.length h) -> whole h r = Some t.
Proof.
  intros R B. apply (whole_rep h _ t r fp); [|exact R]. destruct (rep_size h r (lay t) fp R) as [<- N]. rewrite <- (seq_length (List.length h) 0). apply NoDup_incl_length; [exact N|]. intros x Hx. apply in_seq. pose proof (B x Hx). lia.
Qed.
Lemma rep_root h r t fp : rep h r t fp -> In r fp.
Proof. intros R. inversion R; subst. left. reflexivity. Qed.

(** Different chains of getters lead to different objects. *)
Lemma reps_two h n m : n <> m -> forall rs ts fp, reps h rs ts fp -> forall r1 r2, sget name_eqb n rs = Some (Some r1) -> sget name_eqb m rs = Some (Some r2) ->
  exists t1 t2 f1 f2, sget name_eqb n ts = Some (Some t1) /\ sget name_eqb m ts = Some (Some t2) /\ rep h r1 t1 f1 /\ rep h r2 t2 f2 /\ disj f1 f2 /\ incl f1 fp /\ incl f2 fp.
Proof.
  intros D. unfold sget. induction 1 as [|a v w rs ts f g V R IH Df]; intros r1 r2 E1 E2; [discriminate E1|]. cbn [find fst] in *.
  pose proof (reps_get h n rs ts g R) as G1. pose proof (reps_get h m rs ts g R) as G2. unfold sget in G1, G2.
  destruct (name_eqb a n) eqn:An, (name_eqb a m) eqn:Am.
  - apply name_eqb_eq in An. apply name_eqb_eq in Am. subst. destruct (D eq_refl).
  - cbn [option_map snd] in E1. injection E1 as ->. inversion V as [|? t1 ? R1]; subst. rewrite E2 in G2. destruct (option_map snd (find (fun e => name_eqb (fst e) m) ts)) as [w2|]; [|contradiction]. destruct G2 as [f2 [V2 I2]]. inversion V2 as [|? t2 ? R2]; subst.
    exists t1, t2, f, f2. cbn [option_map snd]. repeat split; try assumption; try (intros x Hx; apply in_or_app; auto; fail). apply (disj_sub _ _ _ _ Df); [intros x Hx; exact Hx|exact I2].
  - cbn [option_map snd] in E2. injection E2 as ->. inversion V as [|? t2 ? R2]; subst. rewrite E1 in G1. destruct (option_map snd (find (fun e => name_eqb (fst e) n) ts)) as [w1|]; [|contradiction]. destruct G1 as [f1 [V1 I1]]. inversion V1 as [|? t1 ? R1]; subst.
    exists t1, t2, f1, f. cbn [option_map snd]. repeat split; try assumption; try (intros x Hx; apply in_or_app; auto; fail). apply disj_sym, (disj_sub _ _ _ _ Df); [intros x Hx; exact Hx|exact I1].
  - destruct (IH r1 r2 E1 E2) as [t1 [t2 [f1 [f2 [A [B [C [C' [D' [I1 I2]]]]]]]]]]. exists t1, t2, f1, f2. repeat split; try assumption; intros x Hx; apply in_or_app; right; auto.
Qed.
Lemma rep_in h : forall ns r t fp i, rep h r (lay t) fp -> h_follow h ns r = Some i -> In i fp.
Proof.
  intros ns r t fp i R E. pose proof (rep_follow h ns r t fp R) as G. destruct (follow ns t) as [q|]; [|rewrite E in G; discriminate G]. destruct G as [r' [fq [E' [Rq Iq]]]]. rewrite E in E'. injection E' as <-. apply Iq. exact (rep_root h i _ fq Rq).
Qed.
Lemma rep_chains h : forall ns ms r t fp i, rep h r (lay t) fp -> h_follow h ns r = Some i -> h_follow h ms r = Some i -> ns = ms.
Proof.
  induction ns as [|n ns IH]; intros [|m ms] r t fp i R E1 E2; [reflexivity| | |].
  - cbn [h_follow] in E1, E2. injection E1 as <-. exfalso. destruct (rep_lay h r t fp R) as [rs [f [Hn [Rs [Hr _]]]]]. unfold h_get in E2. rewrite Hn in E2. cbn [ptrs] in E2.
    destruct (sget name_eqb m rs) as [[r2|]|] eqn:G; try discriminate E2. pose proof (reps_get h m rs _ f Rs) as P. rewrite G, pmap_get in P. destruct (sget name_eqb m (parts t)) as [w|]; [|contradiction]. destruct P as [g [V Ig]]. destruct w as [q|]; inversion V as [|? ? ? Rq]; subst.
    apply Hr, Ig. exact (rep_in h ms r2 q g r Rq E2).
  - cbn [h_follow] in E1, E2. injection E2 as <-. exfalso. destruct (rep_lay h r t fp R) as [rs [f [Hn [Rs [Hr _]]]]]. unfold h_get in E1. rewrite Hn in E1. cbn [ptrs] in E1.
    destruct (sget name_eqb n rs) as [[r2|]|] eqn:G; try discriminate E1. pose proof (reps_get h n rs _ f Rs) as P. rewrite G, pmap_get in P. destruct (sget name_eqb n (parts t)) as [w|]; [|contradiction]. destruct P as [g [V Ig]]. destruct w as [q|]; inversion V as [|? ? ? Rq]; subst.
    apply Hr, Ig. exact (rep_in h ns r2 q g r Rq E1).
  - cbn [h_follow] in E1, E2. destruct (rep_lay h r t fp R) as [rs [f [Hn [Rs [Hr _]]]]]. unfold h_get in E1, E2. rewrite Hn in E1, E2. cbn [ptrs] in E1, E2.
    destruct (sget name_eqb n rs) as [[r1|]|] eqn:G1; try discriminate E1. destruct (sget name_eqb m rs) as [[r2|]|] eqn:G2; try discriminate E2.
    destruct (name_eqb n m) eqn:Nm.
    + apply name_eqb_eq in Nm. subst m. rewrite G1 in G2. injection G2 as <-. f_equal.
      pose proof (reps_get h n rs _ f Rs) as P. rewrite G1, pmap_get in P. destruct (sget name_eqb n (parts t)) as [w|]; [|contradiction]. destruct P as [g [V Ig]]. destruct w as [q|]; inversion V as [|? ? ? Rq]; subst. exact (IH ms r1 q g i Rq E1 E2).
    + exfalso. assert (D : n <> m) by (intros ->; rewrite name_eqb_refl in Nm; discriminate Nm). destruct (reps_two h n m D rs _ f Rs r1 r2 G1 G2) as [t1 [t2 [f1 [f2 [A [B [R1 [R2 [Df _]]]]]]]]].
      rewrite pmap_get in A, B. destruct (sget name_eqb n (parts t)) as [[q1|]|]; try discriminate A. destruct (sget name_eqb m (parts t)) as [[q2|]|]; try discriminate B. cbn [option_map] in A, B. injection A as <-. injection B as <-.
      exact (Df i (rep_in h ns r1 q1 f1 i R1 E1) (rep_in h ms r2 q2 f2 i R2 E2)).
Qed.

(** ** Programs *)

Definition var_ok (h : heap) (o : option nat) (v : option thing) (fp : list nat) : Prop :=
  match o, v with
  | Some r, Some t => rep h r (lay t) fp /\ (forall i, In i fp -> i < List.length h) /\ once t
  | None, None => fp = []
  | _, _ => False
  end.
Definition fine (s : heap * (nat -> option nat)) (env : nat -> option thing) : Prop :=
  exists F : nat -> list nat, (forall x, var_ok (fst s) (snd s x) (env x) (F x)) /\ forall x y, x <> y -> disj (F x) (F y).

Lemma var_bound h o v fp i : var_ok h o v fp -> In i fp -> i < List.length h.
Proof. unfold var_ok. destruct o, v; try contradiction; [intros (_ & B & _); exact (B i)|intros ->; intros []]. Qed.
Lemma var_frame h h' o v fp : var_ok h o v fp -> (forall i, In i fp -> nth_error h' i = nth_error h i) -> List.length h <= List.length h' -> var_ok h' o v fp.
Proof.
  unfold var_ok. destruct o, v; try contradiction; [|intros H _ _; exact H]. intros (R & B & O) E L. split; [exact (rep_frame h h' _ _ fp R E)|]. split; [|exact O]. intros i Hi. pose proof (B i Hi). lia.
Qed.
Lemma replace_length {A} (f : A -> A) : forall l i, List.length (replace_nth i f l) = List.length l.
Proof. induction l as [|a l IH]; intros [|i]; cbn; try reflexivity. rewrite IH. reflexivity. Qed.

Lemma fine_step s env u : fine s env -> once_use u -> fine (h_step s u) (step env u).
Proof.
  destruct s as [h vs]. intros [F [V D]] Hu. cbn [fst snd] in V. destruct u as [x t|x ns a]; cbn [h_step step once_use] in *.
  - pose proof (make_rep (lay t) h) as M. destruct (make (lay t) h) as [h' r]. destruct M as [fp [R [[e ->] B]]].
    exists (fun y => if Nat.eqb y x then fp else F y). cbn [fst snd]. unfold bind_var. split.
    + intros y. destruct (Nat.eqb y x).
      * split; [exact R|]. split; [intros i Hi; apply B in Hi; lia|exact Hu].
      * apply (var_frame h _ _ _ _ (V y)); [|rewrite app_length; lia]. intros i Hi. apply nth_ext. exact (var_bound _ _ _ _ i (V y) Hi).
    + intros y z N. destruct (Nat.eqb_spec y x) as [Ey|Ey], (Nat.eqb_spec z x) as [Ez|Ez].
      * destruct (N (eq_trans Ey (eq_sym Ez))).
      * intros i H1 H2. apply B in H1. pose proof (var_bound _ _ _ _ i (V z) H2). lia.
      * intros i H1 H2. apply B in H2. pose proof (var_bound _ _ _ _ i (V y) H1). lia.
      * exact (D y z N).
  - pose proof (V x) as Vx. destruct (vs x) as [r|] eqn:Er; destruct (env x) as [t|] eqn:Et; cbn [var_ok] in Vx; try contradiction.
    2:{ exists F. cbn [fst snd]. split; [exact V|exact D]. }
    destruct Vx as (R & B & O). pose proof (rep_follow h ns r t (F x) R) as G. destruct (h_follow h ns r) as [i|] eqn:Ei.
    + unfold h_act. pose proof (make_change_rep (change_of a) h) as M. destruct (make_change (change_of a) h) as [h1 k] eqn:Ek. destruct M as [fv [C [[e ->] Bv]]].
      assert (R1 : rep (h ++ e) r (lay t) (F x)) by (apply (rep_frame h _ _ _ _ R); intros j Hj; apply nth_ext; exact (B j Hj)).
      assert (E1 : h_follow (h ++ e) ns r = Some i).
      { pose proof (rep_follow (h ++ e) ns r t (F x) R1) as G1. destruct (follow ns t) as [q|]; [|discriminate G]. clear -Ei R R1 B. revert Ei R R1 B. generalize (F x) as fp. revert r t. induction ns as [|n ns IH]; intros r t fp Ei R R1 B; [exact Ei|]. cbn [h_follow] in *.
        pose proof (rep_lay h r t fp R) as [rs [f [Hn [Rs [Hr Ef]]]]]. unfold h_get in *. rewrite nth_ext by (apply B; rewrite Ef; left; reflexivity). destruct (nth_error h r) as [o|]; [|discriminate Ei]. injection Hn as ->. cbn [ptrs] in *. destruct (sget name_eqb n rs) as [[rc|]|] eqn:Gs; try discriminate Ei.
        pose proof (reps_get h n rs _ f Rs) as P. rewrite Gs, pmap_get in P. destruct (sget name_eqb n (parts t)) as [w|]; [|contradiction]. destruct P as [g [V Ig]]. destruct w as [q|]; inversion V as [|? ? ? Rq]; subst.
        assert (Bg : forall j, In j g -> j < List.length h) by (intros j Hj; apply B; right; exact (Ig j Hj)).
        apply (IH rc q g Ei Rq); [|exact Bg]. apply (rep_frame h _ _ _ _ Rq). intros j Hj. apply nth_ext. exact (Bg j Hj). }
      assert (Dv : disj fv (F x)) by (intros j H1 H2; apply Bv in H1; apply B in H2; lia).
      destruct (edit_rep a k fv ns (h ++ e) t r (F x) i R1 O C Dv E1) as [Hi [fp' [R' I']]].
      exists (fun y => if Nat.eqb y x then fp' else F y). cbn [fst snd]. split.
      * intros y. unfold bind_var. destruct (Nat.eqb_spec y x) as [->|Ny].
        -- rewrite Er. cbn [var_ok]. split; [exact R'|]. split; [|exact (edit_once a Hu ns t O)]. rewrite replace_length, app_length in *. intros j Hj. apply I' in Hj. apply in_app_or in Hj as [Hj|Hj]; [apply B in Hj; lia|apply Bv in Hj; lia].
        -- apply (var_frame h _ _ _ _ (V y)); [|rewrite replace_length, app_length; lia]. intros j Hj. rewrite nth_replace. destruct (Nat.eqb_spec i j) as [->|_]; [destruct (D x y (fun E => Ny (eq_sym E)) j Hi Hj)|]. apply nth_ext. exact (var_bound _ _ _ _ j (V y) Hj).
      * assert (Q : forall z, z <> x -> disj fp' (F z)).
        { intros z Nz j H1 H2. apply I' in H1. apply in_app_or in H1 as [H1|H1]; [exact (D x z (fun E => Nz (eq_sym E)) j H1 H2)|]. apply Bv in H1. pose proof (var_bound _ _ _ _ j (V z) H2). lia. }
        intros y z N. destruct (Nat.eqb_spec y x) as [Ey|Ey], (Nat.eqb_spec z x) as [Ez|Ez].
        -- destruct (N (eq_trans Ey (eq_sym Ez))).
        -- exact (Q z Ez).
        -- apply disj_sym. exact (Q y Ey).
        -- exact (D y z N).
    + destruct (follow ns t) as [q|] eqn:Ef; [destruct G as [r' [fq [X _]]]; discriminate X|]. rewrite (edit_nowhere a ns t O Ef). exists F. cbn [fst snd]. split; [|exact D]. intros y. unfold bind_var. destruct (Nat.eqb_spec y x) as [->|_]; [|exact (V y)]. pose proof (V x) as Vx. rewrite Et in Vx. exact Vx.
Qed.
Lemma fine_all us : Forall once_use us -> fine (memory us) (values us).
Proof.
  unfold memory, values. assert (A : fine ([], fun _ => None) (fun _ => None)).
  { exists (fun _ => []). split; [intros x; reflexivity|intros x y _ i []]. }
  revert A. generalize (@nil (obj nat), fun _ : nat => @None nat) as s, (fun _ : nat => @None thing) as env. induction us as [|u us IH]; intros s env A H; [exact A|]. inversion H as [|? ? H1 H2]; subst. cbn [fold_left]. apply IH; [|exact H2]. exact (fine_step s env u A H1).
Qed.

(** ** C79 *)

Lemma same_vars us : Forall once_use us -> forall x, (snd (memory us) x = None <-> values us x = None).
Proof.
  intros H x. destruct (fine_all us H) as [F [V _]]. specialize (V x). unfold var_ok in V. destruct (snd (memory us) x), (values us x); try contradiction; split; congruence.
Qed.
Lemma memory_is us : Forall once_use us -> forall x r t, snd (memory us) x = Some r -> values us x = Some t -> looks_like (fst (memory us)) r t /\ whole (fst (memory us)) r = Some t.
Proof.
  intros H x r t Er Et. destruct (fine_all us H) as [F [V _]]. specialize (V x). rewrite Er, Et in V. destruct V as (R & B & _). split; [exact (rep_looks _ r t (F x) R)|exact (rep_whole _ r t (F x) R B)].
Qed.
Lemma one_chain us : Forall once_use us -> forall x r ns ms i, snd (memory us) x = Some r -> h_follow (fst (memory us)) ns r = Some i -> h_follow (fst (memory us)) ms r = Some i -> ns = ms.
Proof.
  intros H x r ns ms i Er E1 E2. destruct (fine_all us H) as [F [V _]]. specialize (V x). rewrite Er in V. destruct (values us x) as [t|]; [|contradiction]. destruct V as (R & _). exact (rep_chains _ ns ms r t (F x) i R E1 E2).
Qed.
Lemma one_owner us : Forall once_use us -> forall x y i, reaches (memory us) x i -> reaches (memory us) y i -> x = y.
Proof.
  intros H x y i [r [ns [Er E1]]] [p [ms [Ep E2]]]. destruct (fine_all us H) as [F [V D]]. destruct (Nat.eq_dec x y) as [E|N]; [exact E|]. exfalso.
  pose proof (V x) as Vx. pose proof (V y) as Vy. rewrite Er in Vx. rewrite Ep in Vy. destruct (values us x) as [t|]; [|contradiction]. destruct (values us y) as [q|]; [|contradiction]. destruct Vx as (R1 & _). destruct Vy as (R2 & _).
  exact (D x y N i (rep_in _ ns r t (F x) i R1 E1) (rep_in _ ms p q (F y) i R2 E2)).
Qed.
Lemma call_ext c h : exists e, fst (make_change c h) = h ++ e.
Proof. pose proof (make_change_rep c h) as M. destruct (make_change c h) as [h' k]. destruct M as [fp [_ [E _]]]. exact E. Qed.
(** A call writes to one object of those that were there. *)
Lemma one_object us u i : i < List.length (fst (memory us)) -> target (memory us) u <> Some i -> nth_error (fst (memory (us ++ [u]))) i = nth_error (fst (memory us)) i.
Proof.
  unfold memory. rewrite fold_left_app. cbn [fold_left]. fold (memory us). destruct (memory us) as [h vs]. cbn [fst snd target]. intros L N. destruct u as [x t|x ns a]; cbn [h_step].
  - pose proof (make_rep (lay t) h) as M. destruct (make (lay t) h) as [h' r]. destruct M as [fp [_ [[e ->] _]]]. cbn [fst]. apply nth_ext. exact L.
  - cbn [snd fst target] in N. destruct (vs x) as [r|]; [|reflexivity]. destruct (h_follow h ns r) as [j|] eqn:E; [|reflexivity].
    unfold h_act. cbn [fst]. destruct (call_ext (change_of a) h) as [e Ee]. destruct (make_change (change_of a) h) as [h1 k]. cbn [fst] in Ee. subst h1. rewrite nth_replace. destruct (Nat.eqb_spec j i) as [->|_]; [destruct (N eq_refl)|]. apply nth_ext. exact L.
Qed.

(** ** C80 *)

Lemma values_own P x us : P x = true -> values us x = values (own_calls P us) x.
Proof.
  intros Hx. unfold values. assert (A : forall us env env', (forall y, P y = true -> env y = env' y) -> forall y, P y = true -> fold_left step us env y = fold_left step (own_calls P us) env' y).
  { clear us x Hx. induction us as [|u us IH]; intros env env' E y Hy; [exact (E y Hy)|]. cbn [own_calls filter fold_left]. destruct (P (var_of u)) eqn:Pu; cbn [fold_left]; apply IH; try exact Hy.
    - intros z Hz. destruct u as [x t|x ns a]; cbn [var_of step] in *.
      + unfold bind_var. destruct (Nat.eqb z x); [reflexivity|exact (E z Hz)].
      + rewrite (E x Pu). destruct (env' x) as [t|]; [|exact (E z Hz)]. unfold bind_var. destruct (Nat.eqb z x); [reflexivity|exact (E z Hz)].
    - intros z Hz. rewrite <- (E z Hz). destruct u as [x t|x ns a]; cbn [var_of step] in *; [|destruct (env x) as [t|]; [|reflexivity]]; unfold bind_var; (destruct (Nat.eqb_spec z x) as [->|_]; [rewrite Pu in Hz; discriminate Hz|reflexivity]). }
  exact (A us _ _ (fun _ _ => eq_refl) x Hx).
Qed.
Lemma own_once P us : Forall once_use us -> Forall once_use (own_calls P us).
Proof. intros H. rewrite Forall_forall in *. intros u Hu. apply filter_In in Hu as [Hu _]. exact (H u Hu). Qed.
Lemma undisturbed P us : Forall once_use us -> forall x, P x = true ->
  match snd (memory us) x, snd (memory (own_calls P us)) x with
  | Some r, Some r' => whole (fst (memory us)) r = whole (fst (memory (own_calls P us))) r' /\ whole (fst (memory us)) r <> None
  | None, None => True
  | _, _ => False
  end.
Proof.
  intros H x Hx. pose proof (own_once P us H) as H'. pose proof (values_own P x us Hx) as E. destruct (values us x) as [t|] eqn:Et.
  - destruct (snd (memory us) x) as [r|] eqn:Er; [|apply (same_vars us H) in Er; congruence]. destruct (snd (memory (own_calls P us)) x) as [r'|] eqn:Er'; [|apply (same_vars _ H') in Er'; congruence].
    destruct (memory_is us H x r t Er Et) as [_ W]. destruct (memory_is _ H' x r' t Er' (eq_sym E)) as [_ W']. rewrite W, W'. split; [reflexivity|discriminate].
  - assert (A : snd (memory us) x = None) by (apply (same_vars us H); exact Et). assert (A' : snd (memory (own_calls P us)) x = None) by (apply (same_vars _ H'); congruence). rewrite A, A'. exact I.
Qed.

(** What a program holds *)

Lemma follow_frame h h' : forall ms r, (forall l1 n l2 j, ms = l1 ++ n :: l2 -> h_follow h l1 r = Some j -> nth_error h' j = nth_error h j) -> h_follow h' ms r = h_follow h ms r.
Proof.
  induction ms as [|m ms IH]; intros r H; [reflexivity|]. cbn [h_follow]. unfold h_get. rewrite (H [] m ms r eq_refl eq_refl). destruct (nth_error h r) as [o|] eqn:E; [|reflexivity]. destruct (sget name_eqb m (ptrs o)) as [[r'|]|] eqn:G; try reflexivity.
  apply IH. intros l1 n l2 j El Ej. apply (H (m :: l1) n l2 j); [cbn [app]; rewrite El; reflexivity|]. cbn [h_follow]. unfold h_get. rewrite E, G. exact Ej.
Qed.
Lemma reached_bound us : Forall once_use us -> forall x i, reaches (memory us) x i -> i < List.length (fst (memory us)).
Proof.
  intros H x i [r [ns [Er E]]]. destruct (fine_all us H) as [F [V _]]. specialize (V x). rewrite Er in V. destruct (values us x) as [t|]; [|contradiction]. destruct V as (R & B & _). apply B. exact (rep_in _ ns r t (F x) i R E).
Qed.
Lemma held us x ns a : Forall once_use us -> forall y p ms, snd (memory us) y = Some p -> (y = x -> ~ exists m l, ms = ns ++ m :: l) ->
  h_follow (fst (memory (us ++ [Do x ns a]))) ms p = h_follow (fst (memory us)) ms p.
Proof.
  intros H y p ms Ep Hm. apply follow_frame. intros l1 n l2 j El Ej.
  assert (Rj : reaches (memory us) y j) by (exists p, l1; split; assumption). apply one_object; [exact (reached_bound us H y j Rj)|]. cbn [target]. intros T. destruct (snd (memory us) x) as [r|] eqn:Er; [|discriminate T].
  assert (E : y = x) by (apply (one_owner us H y x j Rj); exists r, ns; split; assumption). subst y. rewrite Er in Ep. injection Ep as ->. apply (Hm eq_refl). exists n, l2. rewrite El. f_equal. exact (one_chain us H x p l1 ns j Er Ej T).
Qed.

Lemma holds_values us x t : Forall once_use us -> holds us x t <-> values us x = Some t.
Proof.
  intros H. split.
  - intros [r [Er [W _]]]. destruct (values us x) as [t'|] eqn:E; [|apply (same_vars us H) in E; congruence]. destruct (memory_is us H x r t' Er E) as [_ W']. congruence.
  - intros E. destruct (snd (memory us) x) as [r|] eqn:Er; [|apply (same_vars us H) in Er; congruence]. exists r. destruct (memory_is us H x r t Er E) as [L W]. repeat split; assumption.
Qed.
Lemma values_snoc us u : values (us ++ [u]) = step (values us) u.
Proof. unfold values. rewrite fold_left_app. reflexivity. Qed.
Lemma snoc_once us u : Forall once_use us -> once_use u -> Forall once_use (us ++ [u]).
Proof. intros H Hu. apply Forall_app. split; [exact H|]. constructor; [exact Hu|constructor]. Qed.
Lemma bind_same {A} x (v : A) env : bind_var x v env x = Some v.
Proof. unfold bind_var. rewrite Nat.eqb_refl. reflexivity. Qed.
Lemma bind_other {A} x y (v : A) env : y <> x -> bind_var x v env y = env y.
Proof. unfold bind_var. intros N. destruct (Nat.eqb_spec y x) as [E|_]; [contradiction|reflexivity]. Qed.

Lemma edit_held us x ns a t q : Forall once_use us -> once_act a -> holds us x t -> follow ns t = Some q ->
  (exists t', holds (us ++ [Do x ns a]) x t' /\ follow ns t' = Some (act_on a q) /\ (forall ms, forked ns ms -> follow ms t' = follow ms t) /\
     forall l m ms p, ns = l ++ m :: ms -> follow l t = Some p -> exists p', follow l t' = Some p' /\ bare p' = bare p /\ map fst (parts p') = map fst (parts p)) /\
  forall y t1, y <> x -> holds us y t1 -> holds (us ++ [Do x ns a]) y t1.
Proof.
  intros H Ha Ht Hq. apply (holds_values us x t H) in Ht. pose proof (snoc_once us (Do x ns a) H Ha) as H'. split.
  - exists (edit_at ns a t). split; [|split; [|split]].
    + apply (holds_values _ _ _ H'). rewrite values_snoc. cbn [step]. rewrite Ht. apply bind_same.
    + exact (edit_there a ns t q Hq).
    + intros ms Fk. exact (edit_elsewhere a ns ms t Fk).
    + intros l m ms p -> Hp. exact (edit_above a l m ms t p Hp).
  - intros y t1 N H1. apply (holds_values _ _ _ H'). apply (holds_values us y t1 H) in H1. rewrite values_snoc. cbn [step]. rewrite Ht, bind_other by exact N. exact H1.
Qed.
Lemma held_once us x t : Forall once_use us -> holds us x t -> once t.
Proof.
  intros H Ht. apply (holds_values us x t H) in Ht. destruct (fine_all us H) as [F [V _]]. specialize (V x). rewrite Ht in V. unfold var_ok in V. destruct (snd (memory us) x); [|contradiction]. apply V.
Qed.
Lemma nowhere_held us x ns a t : Forall once_use us -> once_act a -> holds us x t -> follow ns t = None -> forall y t1, holds us y t1 -> holds (us ++ [Do x ns a]) y t1.
Proof.
  intros H Ha Ht Hn y t1 H1. pose proof (held_once us x t H Ht) as O. apply (holds_values us x t H) in Ht. pose proof (snoc_once us (Do x ns a) H Ha) as H'. apply (holds_values _ _ _ H'). apply (holds_values us y t1 H) in H1. rewrite values_snoc. cbn [step]. rewrite Ht, (edit_nowhere a ns t O Hn).
  unfold bind_var. destruct (Nat.eqb_spec y x) as [->|_]; [congruence|exact H1].
Qed.
Lemma open_held us x t : Forall once_use us -> once t -> holds (us ++ [Open x t]) x t /\ forall y t1, y <> x -> holds us y t1 -> holds (us ++ [Open x t]) y t1.
Proof.
  intros H O. pose proof (snoc_once us (Open x t) H O) as H'. split.
  - apply (holds_values _ _ _ H'). rewrite values_snoc. apply bind_same.
  - intros y t1 N H1. apply (holds_values _ _ _ H'). apply (holds_values us y t1 H) in H1. rewrite values_snoc. cbn [step]. rewrite bind_other by exact N. exact H1.
Qed.
Lemma always_holds us x : Forall once_use us -> snd (memory us) x <> None -> exists t, holds us x t /\ once t.
Proof.
  intros H E. destruct (values us x) as [t|] eqn:V; [|apply (same_vars us H) in V; contradiction]. apply (holds_values us x t H) in V. exists t. split; [exact V|exact (held_once us x t H V)].
Qed.
Lemma saved_held {F : FloatIO} us x t : holds us x t -> exists r, snd (memory us) x = Some r /\ h_saved (fst (memory us)) r = saved t.
Proof. intros [r [Er [W _]]]. exists r. split; [exact Er|]. unfold h_saved. rewrite W. reflexivity. Qed.
Lemma own_holds P us x t : Forall once_use us -> P x = true -> holds us x t <-> holds (own_calls P us) x t.
Proof. intros H Hx. rewrite (holds_values us x t H), (holds_values _ x t (own_once P us H)), (values_own P x us Hx). reflexivity. Qed.
(** A call of one does not write what another may look at. *)
Lemma no_race us u y i : Forall once_use us -> y <> var_of u -> reaches (memory us) y i -> nth_error (fst (memory (us ++ [u]))) i = nth_error (fst (memory us)) i.
Proof.
  intros H N R. apply one_object; [exact (reached_bound us H y i R)|]. intros T. destruct u as [x t|x ns a]; cbn [target var_of] in *; [discriminate T|]. destruct (snd (memory us) x) as [r|] eqn:Er; [|discriminate T]. apply N. apply (one_owner us H y x i R). exists r, ns. split; assumption.
Qed.
