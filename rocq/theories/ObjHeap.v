(** C79: objects in memory are things, and calls on them are edits of these. *)
From Coq Require Import SpecFloat.
From Verif Require Import Base Num OMap OMapSpec Keys Yaml Values Assign Formats Meta Out Xml Example DataType Marshal Doc Api Library Setters Live DeepMore Objects ObjProofs.

(** ** Pointers to other things *)

Definition pmap {A B} (f : A -> B) (ps : list (name * option A)) : list (name * option B) := map (fun e => (fst e, option_map f (snd e))) ps.
Definition cmap {A B} (f : A -> B) (c : change A) : change B :=
  match c with
  | Sets l => Sets (pmap f l)
  | Entries o =>
    Entries match o with
      | OPut k v => OPut k (option_map f v)
      | OPutIfNotNil k v => OPutIfNotNil k (option_map (option_map f) v)
      | OReplaceOrPut k v => OReplaceOrPut k (option_map f v)
      | OReplaceIfExists k v => OReplaceIfExists k (option_map f v)
      | ODelete k => ODelete k
      | OSerializeOrdered b => OSerializeOrdered b
      | OGet k => OGet k
      | OGetOpt k => OGetOpt k
      | OHas k => OHas k
      | OLen => OLen
      | OAt j => OAt j
      | OIndexOf k => OIndexOf k
      | OForEach => OForEach
      end
  end.
Section Pmap.
  Context {A B : Type} (f : A -> B).

  Lemma pmap_names ps : map fst (pmap f ps) = map fst ps.
  Proof. unfold pmap. rewrite map_map. reflexivity. Qed.
  Lemma pmap_replace n v ps : pmap f (sreplace name_eqb n v ps) = sreplace name_eqb n (option_map f v) (pmap f ps).
  Proof. unfold pmap, sreplace. rewrite !map_map. apply map_ext. intros [m w]. cbn [fst snd]. destruct (name_eqb m n); reflexivity. Qed.
  Lemma pmap_delete n : forall ps, pmap f (sdelete name_eqb n ps) = sdelete name_eqb n (pmap f ps).
  Proof.
    unfold sdelete, pmap. induction ps as [|[m w] ps IH]; [reflexivity|]. cbn [filter map fst snd]. change (@other name (option A) name_eqb n (m, w)) with (negb (name_eqb m n)). change (@other name (option B) name_eqb n (m, option_map f w)) with (negb (name_eqb m n)). destruct (name_eqb m n); cbn [negb map fst snd]; rewrite IH; reflexivity.
  Qed.
  Lemma pmap_put n v ps : pmap f (sput name_eqb n v ps) = sput name_eqb n (option_map f v) (pmap f ps).
  Proof. unfold sput. rewrite <- pmap_delete. unfold pmap at 1. rewrite map_app. reflexivity. Qed.
  Lemma pmap_has n ps : shas name_eqb n (pmap f ps) = shas name_eqb n ps.
  Proof. unfold shas, pmap. induction ps as [|[m w] ps IH]; [reflexivity|]. cbn [map existsb fst snd]. rewrite IH. reflexivity. Qed.
  Lemma pmap_get n ps : sget name_eqb n (pmap f ps) = option_map (option_map f) (sget name_eqb n ps).
  Proof. unfold sget, pmap. induction ps as [|[m w] ps IH]; [reflexivity|]. cbn [map find fst snd]. destruct (name_eqb m n); [reflexivity|exact IH]. Qed.
  Lemma pmap_change c ps : pmap f (change_ptrs c ps) = change_ptrs (cmap f c) (pmap f ps).
  Proof.
    destruct c as [l|o].
    - cbn [cmap change_ptrs]. revert ps. induction l as [|[n v] l IH]; intros ps; [reflexivity|]. change (pmap f ((n, v) :: l)) with ((n, option_map f v) :: pmap f l). cbn [fold_left fst snd]. rewrite IH, pmap_replace. reflexivity.
    - destruct o as [k v|k [v|]|k v|k v|k|b|k|k|k| |j|k| ]; cbn [cmap change_ptrs sstep option_map]; try reflexivity.
      + apply pmap_put.
      + apply pmap_put.
      + rewrite pmap_has. destruct (shas name_eqb k ps); [apply pmap_replace|apply pmap_put].
      + apply pmap_replace.
      + apply pmap_delete.
      + destruct (sat j ps), (sat j (pmap f ps)); reflexivity.
  Qed.
End Pmap.

Lemma lay_act a t : fits a t = true -> lay (act_on a t) = Tree (bare (act_on a (bare t))) (change_ptrs (cmap lay (change_of a)) (pmap lay (parts t))).
Proof. intros H. rewrite lay_eq, (act_bare a t H), (act_parts a t H). f_equal. apply (pmap_change lay). Qed.
Lemma lay_put n q0 q t : get_part n t = Some q0 -> sort q = sort q0 -> lay (put_part n q t) = Tree (bare t) (sreplace name_eqb n (Some (lay q)) (pmap lay (parts t))).
Proof. intros H S. rewrite lay_eq, put_bare, (put_parts n q0 q t H S). f_equal. apply (pmap_replace lay). Qed.

(** ** What is at an address, and where all of it is *)

Definition disj (f g : list nat) : Prop := forall x, In x f -> In x g -> False.

Inductive rep (h : heap) : nat -> tree -> list nat -> Prop :=
| rep_at r o rs ts fp : nth_error h r = Some (mkObj o rs) -> reps h rs ts fp -> ~ In r fp -> rep h r (Tree o ts) (r :: fp)
with reps (h : heap) : list (name * option nat) -> list (name * option tree) -> list nat -> Prop :=
| reps_nil : reps h [] [] []
| reps_cons n v w rs ts f g : vrep h v w f -> reps h rs ts g -> disj f g -> reps h ((n, v) :: rs) ((n, w) :: ts) (f ++ g)
with vrep (h : heap) : option nat -> option tree -> list nat -> Prop :=
| vrep_none : vrep h None None []
| vrep_some r t f : rep h r t f -> vrep h (Some r) (Some t) f.
Scheme rep_i := Induction for rep Sort Prop with reps_i := Induction for reps Sort Prop with vrep_i := Induction for vrep Sort Prop.
Combined Scheme rep_mut from rep_i, reps_i, vrep_i.

Lemma rep_frame_all h h' :
  (forall r t fp, rep h r t fp -> (forall x, In x fp -> nth_error h' x = nth_error h x) -> rep h' r t fp) /\
  (forall rs ts fp, reps h rs ts fp -> (forall x, In x fp -> nth_error h' x = nth_error h x) -> reps h' rs ts fp) /\
  (forall v w fp, vrep h v w fp -> (forall x, In x fp -> nth_error h' x = nth_error h x) -> vrep h' v w fp).
Proof.
  refine (conj (fun r t fp R => rep_i h (fun r t fp _ => (forall x, In x fp -> nth_error h' x = nth_error h x) -> rep h' r t fp)
                              (fun rs ts fp _ => (forall x, In x fp -> nth_error h' x = nth_error h x) -> reps h' rs ts fp)
                              (fun v w fp _ => (forall x, In x fp -> nth_error h' x = nth_error h x) -> vrep h' v w fp) _ _ _ _ _ r t fp R)
    (conj (fun r t fp R => reps_i h (fun r t fp _ => (forall x, In x fp -> nth_error h' x = nth_error h x) -> rep h' r t fp)
                              (fun rs ts fp _ => (forall x, In x fp -> nth_error h' x = nth_error h x) -> reps h' rs ts fp)
                              (fun v w fp _ => (forall x, In x fp -> nth_error h' x = nth_error h x) -> vrep h' v w fp) _ _ _ _ _ r t fp R)
          (fun r t fp R => vrep_i h (fun r t fp _ => (forall x, In x fp -> nth_error h' x = nth_error h x) -> rep h' r t fp)
                              (fun rs ts fp _ => (forall x, In x fp -> nth_error h' x = nth_error h x) -> reps h' rs ts fp)
                              (fun v w fp _ => (forall x, In x fp -> nth_error h' x = nth_error h x) -> vrep h' v w fp) _ _ _ _ _ r t fp R))).
  all: clear r t fp R.
  all: try (intros; constructor; fail).
  all: try (intros r o rs ts fp Hn _ IH Hr E; apply (rep_at h' r o rs ts fp); [rewrite (E r (or_introl eq_refl)); exact Hn|apply IH; intros x Hx; apply E; right; exact Hx|exact Hr]).
  all: try (intros n v w rs ts f g _ IH1 _ IH2 D E; constructor; [apply IH1|apply IH2|exact D]; intros x Hx; apply E, in_or_app; [left|right]; exact Hx).
  all: intros r t f _ IH E; constructor; exact (IH E).
Qed.
Lemma rep_frame h h' r t fp : rep h r t fp -> (forall x, In x fp -> nth_error h' x = nth_error h x) -> rep h' r t fp.
Proof. exact (proj1 (rep_frame_all h h') r t fp). Qed.
Lemma reps_frame h h' r t fp : reps h r t fp -> (forall x, In x fp -> nth_error h' x = nth_error h x) -> reps h' r t fp.
Proof. exact (proj1 (proj2 (rep_frame_all h h')) r t fp). Qed.
Lemma vrep_frame h h' r t fp : vrep h r t fp -> (forall x, In x fp -> nth_error h' x = nth_error h x) -> vrep h' r t fp.
Proof. exact (proj2 (proj2 (rep_frame_all h h')) r t fp). Qed.

Lemma disj_sub f g f' g' : disj f g -> incl f' f -> incl g' g -> disj f' g'.
Proof. intros D I1 I2 x H1 H2. exact (D x (I1 x H1) (I2 x H2)). Qed.
Lemma disj_sym f g : disj f g -> disj g f.
Proof. intros D x H1 H2. exact (D x H2 H1). Qed.
Lemma disj_app f g k : disj f k -> disj g k -> disj (f ++ g) k.
Proof. intros D1 D2 x H1 H2. apply in_app_or in H1 as [H1|H1]; [exact (D1 x H1 H2)|exact (D2 x H1 H2)]. Qed.

Lemma reps_names h rs ts fp : reps h rs ts fp -> map fst rs = map fst ts.
Proof. induction 1 as [|n v w rs ts f g _ _ IH _]; [reflexivity|]. cbn. rewrite IH. reflexivity. Qed.
Lemma reps_app h rs1 ts1 f1 rs2 ts2 f2 : reps h rs1 ts1 f1 -> reps h rs2 ts2 f2 -> disj f1 f2 -> reps h (rs1 ++ rs2) (ts1 ++ ts2) (f1 ++ f2).
Proof.
  induction 1 as [|n v w rs ts f g V R IH D]; intros R2 D2; [exact R2|]. cbn [app]. rewrite <- app_assoc. constructor; [exact V| |].
  - apply IH; [exact R2|]. apply (disj_sub _ _ _ _ D2); [intros x Hx; apply in_or_app; right; exact Hx|intros x Hx; exact Hx].
  - apply disj_sym, disj_app; apply disj_sym; [exact D|]. apply (disj_sub _ _ _ _ D2); [intros x Hx; apply in_or_app; left; exact Hx|intros x Hx; exact Hx].
Qed.
Lemma reps_delete h n rs ts fp : reps h rs ts fp -> exists fp', reps h (sdelete name_eqb n rs) (sdelete name_eqb n ts) fp' /\ incl fp' fp.
Proof.
  induction 1 as [|m v w rs ts f g V R [g' [IH I']] D]; [exists []; split; [constructor|intros x []]|]. unfold sdelete. cbn [filter]. change (@other name (option nat) name_eqb n (m, v)) with (negb (name_eqb m n)). change (@other name (option tree) name_eqb n (m, w)) with (negb (name_eqb m n)). destruct (name_eqb m n); cbn [negb].
  - exists g'. split; [exact IH|]. intros x Hx. apply in_or_app. right. exact (I' x Hx).
  - exists (f ++ g'). split; [constructor; [exact V|exact IH|]|].
    + apply (disj_sub _ _ _ _ D); [intros x Hx; exact Hx|exact I'].
    + intros x Hx. apply in_app_or in Hx as [Hx|Hx]; apply in_or_app; [left|right]; auto.
Qed.
Lemma replace_absent {A} n (v : A) ps : ~ In n (map fst ps) -> sreplace name_eqb n v ps = ps.
Proof.
  intros H. unfold sreplace. induction ps as [|[m w] ps IH]; [reflexivity|]. cbn [map fst] in *. rewrite name_eqb_neq by (intros ->; apply H; left; reflexivity). f_equal. apply IH. intros X. apply H. right. exact X.
Qed.
Lemma replace_names {A} n (v : A) ps : map fst (sreplace name_eqb n v ps) = map fst ps.
Proof. unfold sreplace. rewrite map_map. apply map_ext. intros [m w]. cbn [fst]. destruct (name_eqb m n); reflexivity. Qed.
Lemma reps_replace h n v w fv rs ts fp : reps h rs ts fp -> NoDup (map fst ts) -> vrep h v w fv -> disj fv fp ->
  exists fp', reps h (sreplace name_eqb n v rs) (sreplace name_eqb n w ts) fp' /\ incl fp' (fp ++ fv).
Proof.
  intros R N V D. revert N D. induction R as [|m v0 w0 rs ts f g V0 R IH D0]; intros N D; [exists []; split; [constructor|intros x []]|].
  cbn [map fst] in N. inversion N as [|? ? N1 N2]; subst. pose proof (reps_names h rs ts g R) as E. unfold sreplace. cbn [map fst]. destruct (name_eqb m n) eqn:Em.
  - apply name_eqb_eq in Em. subst m. fold (@sreplace name (option nat) name_eqb n v rs). fold (@sreplace name (option tree) name_eqb n w ts).
    rewrite (replace_absent n w ts N1), (replace_absent n v rs) by (rewrite E; exact N1). exists (fv ++ g). split; [constructor; [exact V|exact R|]|].
    + apply (disj_sub _ _ _ _ D); [intros x Hx; exact Hx|intros x Hx; apply in_or_app; right; exact Hx].
    + intros x Hx. apply in_app_or in Hx as [Hx|Hx]; apply in_or_app; [right; exact Hx|left; apply in_or_app; right; exact Hx].
  - destruct IH as [g' [IH I']]; [exact N2|apply (disj_sub _ _ _ _ D); [intros x Hx; exact Hx|intros x Hx; apply in_or_app; right; exact Hx]|].
    exists (f ++ g'). split; [constructor; [exact V0|exact IH|]|].
    + intros x H1 H2. apply I' in H2. apply in_app_or in H2 as [H2|H2]; [exact (D0 x H1 H2)|]. apply (D x H2). apply in_or_app. left. exact H1.
    + intros x Hx. apply in_app_or in Hx as [Hx|Hx]; [apply in_or_app; left; apply in_or_app; left; exact Hx|]. apply I' in Hx. apply in_app_or in Hx as [Hx|Hx]; apply in_or_app; [left; apply in_or_app; right; exact Hx|right; exact Hx].
Qed.
Lemma reps_put h n v w fv rs ts fp : reps h rs ts fp -> vrep h v w fv -> disj fv fp ->
  exists fp', reps h (sput name_eqb n v rs) (sput name_eqb n w ts) fp' /\ incl fp' (fp ++ fv).
Proof.
  intros R V D. destruct (reps_delete h n rs ts fp R) as [g [R' I']]. exists (g ++ (fv ++ [])). split.
  - unfold sput. apply reps_app; [exact R'|constructor; [exact V|constructor|intros x _ []]|]. rewrite app_nil_r. apply disj_sym. apply (disj_sub _ _ _ _ D); [intros x Hx; exact Hx|exact I'].
  - rewrite app_nil_r. intros x Hx. apply in_app_or in Hx as [Hx|Hx]; apply in_or_app; [left; exact (I' x Hx)|right; exact Hx].
Qed.
Lemma reps_get h n rs ts fp : reps h rs ts fp ->
  match sget name_eqb n rs, sget name_eqb n ts with
  | Some v, Some w => exists f, vrep h v w f /\ incl f fp
  | None, None => True
  | _, _ => False
  end.
Proof.
  unfold sget. induction 1 as [|m v w rs ts f g V R IH D]; [exact I|]. cbn [find fst]. destruct (name_eqb m n).
  - cbn. exists f. split; [exact V|]. intros x Hx. apply in_or_app. left. exact Hx.
  - destruct (find _ rs), (find _ ts); cbn in *; auto. destruct IH as [f' [V' I']]. exists f'. split; [exact V'|]. intros x Hx. apply in_or_app. right. exact (I' x Hx).
Qed.
(** The pointer under a name, and the others. *)
Lemma reps_split h n rc rs ts fp : reps h rs ts fp -> NoDup (map fst ts) -> sget name_eqb n rs = Some (Some rc) ->
  exists tc fc, sget name_eqb n ts = Some (Some tc) /\ rep h rc tc fc /\ incl fc fp /\
    forall h' tc' fc', rep h' rc tc' fc' -> (forall x, In x fp -> ~ In x fc -> nth_error h' x = nth_error h x) -> (forall x, In x fc' -> In x fp -> In x fc) ->
      exists fp', reps h' rs (sreplace name_eqb n (Some tc') ts) fp' /\ incl fp' (fp ++ fc').
Proof.
  unfold sget. induction 1 as [|m v w rs ts f g V R IH D]; intros N E; [discriminate E|]. cbn [map fst] in N. inversion N as [|? ? N1 N2]; subst. cbn [find fst] in *. destruct (name_eqb m n) eqn:Em.
  - cbn in E. injection E as ->. inversion V as [|? tc ? Rc]; subst. exists tc, f. cbn. split; [reflexivity|]. split; [exact Rc|]. split; [intros x Hx; apply in_or_app; left; exact Hx|].
    intros h' tc' fc' Rc' Hh Hf. exists (fc' ++ g). split.
    + unfold sreplace. cbn [map fst]. rewrite Em. apply name_eqb_eq in Em. subst m. fold (@sreplace name (option tree) name_eqb n (Some tc') ts). rewrite (replace_absent n (Some tc') ts N1). constructor; [constructor; exact Rc'| |].
      * apply (reps_frame h h' rs ts g R). intros x Hx. apply Hh; [apply in_or_app; right; exact Hx|]. intros Hf'. exact (D x Hf' Hx).
      * intros x H1 H2. apply (D x); [|exact H2]. apply Hf; [exact H1|]. apply in_or_app. right. exact H2.
    + intros x Hx. apply in_app_or in Hx as [Hx|Hx]; apply in_or_app; [right; exact Hx|left; apply in_or_app; right; exact Hx].
  - destruct (IH N2 E) as [tc [fc [E' [Rc [Ic K]]]]]. exists tc, fc. split; [exact E'|]. split; [exact Rc|]. split; [intros x Hx; apply in_or_app; right; exact (Ic x Hx)|].
    intros h' tc' fc' Rc' Hh Hf. destruct (K h' tc' fc' Rc') as [g' [R' I']].
    + intros x Hx Hn. apply Hh; [apply in_or_app; right; exact Hx|exact Hn].
    + intros x H1 H2. apply Hf; [exact H1|apply in_or_app; right; exact H2].
    + exists (f ++ g'). split.
      * unfold sreplace. cbn [map fst]. rewrite Em. constructor; [|exact R'|].
        -- apply (vrep_frame h h' v w f V). intros x Hx. apply Hh; [apply in_or_app; left; exact Hx|]. intros Hc. exact (D x Hx (Ic x Hc)).
        -- intros x H1 H2. apply I' in H2. apply in_app_or in H2 as [H2|H2]; [exact (D x H1 H2)|]. apply (D x H1). apply Ic. apply Hf; [exact H2|apply in_or_app; left; exact H1].
      * intros x Hx. apply in_app_or in Hx as [Hx|Hx]; [apply in_or_app; left; apply in_or_app; left; exact Hx|]. apply I' in Hx. apply in_app_or in Hx as [Hx|Hx]; apply in_or_app; [left; apply in_or_app; right; exact Hx|right; exact Hx].
Qed.

(** ** New objects *)

Definition fresh (h h' : heap) (fp : list nat) : Prop := (exists e, h' = h ++ e) /\ forall x, In x fp -> List.length h <= x < List.length h'.

Fixpoint tree_size (t : tree) : nat :=
  match t with Tree _ ps => S ((fix go l := match l with [] => 0 | (_, Some t) :: l => tree_size t + go l | (_, None) :: l => go l end) ps) end.
Definition trees_size (l : list (name * option tree)) : nat := fold_right (fun e s => match snd e with Some t => tree_size t + s | None => s end) 0 l.
Lemma tree_size_eq o ps : tree_size (Tree o ps) = S (trees_size ps).
Proof. cbn [tree_size]. f_equal. induction ps as [|[n [t|]] ps IH]; [reflexivity| |]; cbn [trees_size fold_right snd]; rewrite IH; reflexivity. Qed.

Lemma nth_ext (h e : heap) x : x < List.length h -> nth_error (h ++ e) x = nth_error h x.
Proof. intros H. apply nth_error_app1. exact H. Qed.

Definition make_ok (f : tree -> heap -> heap * nat) (t : tree) : Prop := forall h, let '(h', r) := f t h in exists fp, rep h' r t fp /\ fresh h h' fp.
Lemma make_all_ok f l : (forall n t, In (n, Some t) l -> make_ok f t) -> forall h, let '(h', rs) := make_all f l h in exists fp, reps h' rs l fp /\ fresh h h' fp.
Proof.
  induction l as [|[n [t|]] l IH]; intros F h; cbn [make_all].
  - exists []. split; [constructor|]. split; [exists []; symmetry; apply app_nil_r|intros x []].
  - pose proof (F n t (or_introl eq_refl) h) as Hf. destruct (f t h) as [h1 r]. destruct Hf as [f1 [R1 [[e1 ->] B1]]].
    specialize (IH (fun n t H => F n t (or_intror H)) (h ++ e1)). destruct (make_all f l (h ++ e1)) as [h2 rs] eqn:E. destruct IH as [f2 [R2 [[e2 ->] B2]]].
    exists (f1 ++ f2). split; [constructor|].
    + constructor. apply (rep_frame (h ++ e1) _ r t f1 R1). intros x Hx. apply nth_ext. apply B1 in Hx. apply Hx.
    + exact R2.
    + intros x H1 H2. apply B1 in H1. apply B2 in H2. lia.
    + split; [exists (e1 ++ e2); symmetry; apply app_assoc|]. rewrite !app_length in *. intros x Hx. apply in_app_or in Hx as [Hx|Hx]; [apply B1 in Hx|apply B2 in Hx]; lia.
  - specialize (IH (fun n t H => F n t (or_intror H)) h). destruct (make_all f l h) as [h2 rs] eqn:E. destruct IH as [f2 [R2 Fr]]. exists f2. split; [|exact Fr]. apply (reps_cons h2 n None None rs l [] f2); [constructor|exact R2|intros x []].
Qed.
Lemma make_good : forall N t, tree_size t <= N -> make_ok make t.
Proof.
  induction N as [|N IH]; intros [o ps] H h; rewrite tree_size_eq in H; [lia|]. cbn [make].
  assert (A : forall n t, In (n, Some t) ps -> make_ok make t).
  { intros n t Hin. apply IH. apply le_S_n in H. clear -H Hin. revert H. induction ps as [|[m [u|]] ps IHp]; intros H; [destruct Hin| |]; cbn [trees_size fold_right snd] in H; fold (trees_size ps) in H.
    - destruct Hin as [Hin|Hin]; [injection Hin as -> ->; lia|]. apply (IHp Hin). lia.
    - destruct Hin as [Hin|Hin]; [discriminate Hin|]. apply (IHp Hin). lia. }
  pose proof (make_all_ok make ps A h) as M. destruct (make_all make ps h) as [h1 rs]. destruct M as [fp [R [[e ->] B]]].
  exists (List.length (h ++ e) :: fp). split.
  - apply (rep_at _ _ o rs ps fp).
    + rewrite nth_error_app2 by lia. rewrite Nat.sub_diag. reflexivity.
    + apply (reps_frame (h ++ e) _ rs ps fp R). intros x Hx. apply nth_ext. apply B, Hx.
    + intros Hx. apply B in Hx. lia.
  - split; [exists (e ++ [mkObj o rs]); symmetry; apply app_assoc|]. rewrite !app_length in *. cbn [List.length]. intros x [<-|Hx]; [lia|]. apply B in Hx. lia.
Qed.
Lemma make_rep t h : let '(h', r) := make t h in exists fp, rep h' r t fp /\ fresh h h' fp.
Proof. exact (make_good (tree_size t) t (le_n _) h). Qed.

(** ** Changes of pointers *)

Definition idle {R} (o : op name (option R)) : bool :=
  match o with OPut _ _ | OPutIfNotNil _ (Some _) | OReplaceOrPut _ _ | OReplaceIfExists _ _ | ODelete _ => false | _ => true end.
Inductive crep (h : heap) : change nat -> change tree -> list nat -> Prop :=
| crep_sets l k fp : reps h l k fp -> crep h (Sets l) (Sets k) fp
| crep_put k v w fp : vrep h v w fp -> crep h (Entries (OPut k v)) (Entries (OPut k w)) fp
| crep_pin k v w fp : vrep h v w fp -> crep h (Entries (OPutIfNotNil k (Some v))) (Entries (OPutIfNotNil k (Some w))) fp
| crep_rop k v w fp : vrep h v w fp -> crep h (Entries (OReplaceOrPut k v)) (Entries (OReplaceOrPut k w)) fp
| crep_rie k v w fp : vrep h v w fp -> crep h (Entries (OReplaceIfExists k v)) (Entries (OReplaceIfExists k w)) fp
| crep_del k : crep h (Entries (ODelete k)) (Entries (ODelete k)) []
| crep_idle o o' : idle o = true -> idle o' = true -> crep h (Entries o) (Entries o') [].

Lemma idle_ptrs {R} (o : op name (option R)) ps : idle o = true -> change_ptrs (Entries o) ps = ps.
Proof. destruct o as [k v|k [v|]|k v|k v|k|b|k|k|k| |j|k| ]; intros H; try discriminate H; try reflexivity. cbn [change_ptrs sstep]. destruct (sat j ps); reflexivity. Qed.
Lemma has_names {A B} n (l : list (name * A)) (k : list (name * B)) : map fst l = map fst k -> shas name_eqb n l = shas name_eqb n k.
Proof.
  unfold shas. revert k. induction l as [|[m v] l IH]; intros [|[m' w] k] E; try discriminate E; [reflexivity|]. cbn [map fst existsb] in *. injection E as -> E. rewrite (IH k E). reflexivity.
Qed.

Lemma reps_sets h : forall l k fv, reps h l k fv -> forall rs ts fp, reps h rs ts fp -> NoDup (map fst ts) -> disj fv fp ->
  exists fp', reps h (change_ptrs (Sets l) rs) (change_ptrs (Sets k) ts) fp' /\ incl fp' (fp ++ fv).
Proof.
  induction 1 as [|n v w l k f g V L IH D]; intros rs ts fp R N Dp; [exists fp; split; [exact R|intros x Hx; apply in_or_app; left; exact Hx]|].
  destruct (reps_replace h n v w f rs ts fp R N V) as [f1 [R1 I1]]; [apply (disj_sub _ _ _ _ Dp); [intros x Hx; apply in_or_app; left; exact Hx|intros x Hx; exact Hx]|].
  destruct (IH (sreplace name_eqb n v rs) (sreplace name_eqb n w ts) f1 R1) as [f2 [R2 I2]].
  - rewrite replace_names. exact N.
  - intros x H1 H2. apply I1 in H2. apply in_app_or in H2 as [H2|H2]; [apply (Dp x); [apply in_or_app; right; exact H1|exact H2]|exact (D x H2 H1)].
  - exists f2. split; [exact R2|]. intros x Hx. apply I2 in Hx. apply in_app_or in Hx as [Hx|Hx]; [apply I1 in Hx; apply in_app_or in Hx as [Hx|Hx]|]; apply in_or_app; [left; exact Hx|right; apply in_or_app; left; exact Hx|right; apply in_or_app; right; exact Hx].
Qed.
Lemma reps_change h c k fv rs ts fp : crep h c k fv -> reps h rs ts fp -> NoDup (map fst ts) -> disj fv fp ->
  exists fp', reps h (change_ptrs c rs) (change_ptrs k ts) fp' /\ incl fp' (fp ++ fv).
Proof.
  intros C R N D. destruct C as [l m fv L|n v w fv V|n v w fv V|n v w fv V|n v w fv V|n|o o' I1 I2].
  - exact (reps_sets h l m fv L rs ts fp R N D).
  - exact (reps_put h n v w fv rs ts fp R V D).
  - exact (reps_put h n v w fv rs ts fp R V D).
  - cbn [change_ptrs sstep]. rewrite (has_names n rs ts (reps_names h rs ts fp R)). destruct (shas name_eqb n ts); [exact (reps_replace h n v w fv rs ts fp R N V D)|exact (reps_put h n v w fv rs ts fp R V D)].
  - exact (reps_replace h n v w fv rs ts fp R N V D).
  - destruct (reps_delete h n rs ts fp R) as [g [R' I']]. exists g. split; [exact R'|]. intros x Hx. apply in_or_app. left. exact (I' x Hx).
  - rewrite (idle_ptrs o rs I1), (idle_ptrs o' ts I2). exists fp. split; [exact R|]. intros x Hx. apply in_or_app. left. exact Hx.
Qed.

Lemma make_change_rep c h : let '(h', k) := make_change c h in exists fp, crep h' k (cmap lay c) fp /\ fresh h h' fp.
Proof.
  assert (Z : fresh h h []) by (split; [exists []; symmetry; apply app_nil_r|intros x []]).
  destruct c as [l|o]; cbn [make_change].
  - pose proof (make_all_ok make (lay_all l) (fun n t _ => make_good _ t (le_n _)) h) as M. destruct (make_all make (lay_all l) h) as [h' rs]. destruct M as [fp [R Fr]]. exists fp. split; [constructor; exact R|exact Fr].
  - destruct o as [k [v|]|k [[v|]|]|k [v|]|k [v|]|k|b|k|k|k| |j|k| ]; cbn [make_op cmap option_map].
    all: try (pose proof (make_rep (lay v) h) as M; destruct (make (lay v) h) as [h' r]; destruct M as [fp [R Fr]]; exists fp; split; [|exact Fr]; first [apply crep_put|apply crep_pin|apply crep_rop|apply crep_rie]; constructor; exact R).
    all: exists []; split; [|exact Z].
    all: try (apply crep_idle; reflexivity).
    all: first [apply crep_put|apply crep_pin|apply crep_rop|apply crep_rie|apply crep_del]; constructor.
Qed.

(** ** Keys once *)

Lemma once_names t : once t -> NoDup (map fst (parts t)).
Proof. intros H. exact (H [] t eq_refl). Qed.
Lemma once_part t n q : once t -> get_part n t = Some q -> once q.
Proof. intros H E ns p F. apply (H (n :: ns) p). cbn [follow]. rewrite E. exact F. Qed.
Lemma once_from t : NoDup (map fst (parts t)) -> (forall n q, get_part n t = Some q -> once q) -> once t.
Proof.
  intros N P [|n ns] q F; [injection F as <-; exact N|]. cbn [follow] in F. destruct (get_part n t) as [p|] eqn:E; [|discriminate F]. exact (P n p E ns q F).
Qed.

Lemma get_in {A} n (v : A) ps : sget name_eqb n ps = Some v -> In (n, v) ps.
Proof. unfold sget. induction ps as [|[m w] ps IH]; [discriminate|]. cbn [find fst]. destruct (name_eqb m n) eqn:E; cbn; intros H; [injection H as ->; apply name_eqb_eq in E; left; rewrite E; reflexivity|right; apply IH; exact H]. Qed.
Definition all_once (ps : list (name * option thing)) : Prop := forall n t, In (n, Some t) ps -> once t.
Lemma once_parts t : once t <-> NoDup (map fst (parts t)) /\ all_once (parts t).
Proof.
  split.
  - intros H. split; [exact (once_names t H)|]. intros n q Hin. apply (once_part t n q H). unfold get_part. pose proof (once_names t H) as N. revert Hin N. unfold sget. induction (parts t) as [|[m w] ps IH]; [intros []|]. cbn [map fst find]. intros [E|Hin] N.
    + injection E as -> ->. rewrite name_eqb_refl. reflexivity.
    + inversion N as [|? ? N1 N2]; subst. rewrite name_eqb_neq; [exact (IH Hin N2)|]. intros ->. apply N1. apply in_map_iff. exists (n, Some q). split; [reflexivity|exact Hin].
  - intros [N A]. apply once_from; [exact N|]. intros n q E. unfold get_part in E. destruct (sget name_eqb n (parts t)) as [w|] eqn:G; [|discriminate E]. subst w. exact (A n q (get_in n (Some q) _ G)).
Qed.

Lemma replace_in {A} n (v : A) ps m w : In (m, w) (sreplace name_eqb n v ps) -> In (m, w) ps \/ w = v.
Proof. unfold sreplace. intros H. apply in_map_iff in H as [[a b] [E H]]. cbn [fst] in E. destruct (name_eqb a n); injection E as <- <-; [right; reflexivity|left; exact H]. Qed.
Lemma delete_in {A} n (ps : list (name * A)) e : In e (sdelete name_eqb n ps) -> In e ps.
Proof. unfold sdelete. intros H. apply filter_In in H. apply H. Qed.
Lemma delete_names {A} n (ps : list (name * A)) : NoDup (map fst ps) -> NoDup (map fst (sdelete name_eqb n ps)) /\ ~ In n (map fst (sdelete name_eqb n ps)).
Proof.
  intros N. split.
  - unfold sdelete. induction ps as [|[m w] ps IH]; [constructor|]. inversion N as [|? ? N1 N2]; subst. cbn [filter]. destruct (other name_eqb n (m, w)); [|exact (IH N2)]. cbn [map fst]. constructor; [|exact (IH N2)]. intros H. apply N1. apply in_map_iff in H as [e [E H]]. apply in_map_iff. exists e. split; [exact E|exact (delete_in n ps e H)].
  - intros H. apply in_map_iff in H as [[a b] [E H]]. cbn in E. subst a. apply filter_In in H as [_ H]. unfold other in H. cbn [fst] in H. rewrite name_eqb_refl in H. discriminate H.
Qed.
Lemma put_in {A} n (v : A) ps m w : In (m, w) (sput name_eqb n v ps) -> In (m, w) ps \/ w = v.
Proof. unfold sput. intros H. apply in_app_or in H as [H|[H|[]]]; [left; exact (delete_in n ps _ H)|right; injection H as _ ->; reflexivity]. Qed.
Lemma NoDup_snoc {A} (l : list A) a : NoDup l -> ~ In a l -> NoDup (l ++ [a]).
Proof. intros N H. induction l as [|b l IH]; [repeat constructor; intros []|]. inversion N as [|? ? N1 N2]; subst. cbn [app]. constructor; [|apply IH; [exact N2|intros X; apply H; right; exact X]]. intros X. apply in_app_or in X as [X|[X|[]]]; [exact (N1 X)|]. apply H. left. symmetry. exact X. Qed.
Lemma put_names {A} n (v : A) ps : NoDup (map fst ps) -> NoDup (map fst (sput name_eqb n v ps)).
Proof. intros N. destruct (delete_names n ps N) as [N1 N2]. unfold sput. rewrite map_app. apply NoDup_snoc; [exact N1|exact N2]. Qed.

Lemma change_once a ps : once_act a -> NoDup (map fst ps) -> all_once ps -> NoDup (map fst (change_ptrs (change_of a) ps)) /\ all_once (change_ptrs (change_of a) ps).
Proof.
  unfold once_act. destruct (change_of a) as [l|o].
  - cbn [change_ptrs]. intros H. revert ps. induction l as [|[n v] l IH]; intros ps N A; [split; [exact N|exact A]|]. cbn [fold_left fst snd]. apply IH.
    + intros m t Hin. exact (H m t (or_intror Hin)).
    + rewrite replace_names. exact N.
    + intros m t Hin. apply replace_in in Hin as [Hin|E]; [exact (A m t Hin)|]. subst v. exact (H n t (or_introl eq_refl)).
  - intros H N A.
    assert (P : forall n v, (forall t, v = Some t -> once t) -> NoDup (map fst (sput name_eqb n v ps)) /\ all_once (sput name_eqb n v ps)).
    { intros n v Hv. split; [apply put_names; exact N|]. intros m t Hin. apply put_in in Hin as [Hin|E]; [exact (A m t Hin)|]. exact (Hv t (eq_sym E)). }
    assert (R : forall n v, (forall t, v = Some t -> once t) -> NoDup (map fst (sreplace name_eqb n v ps)) /\ all_once (sreplace name_eqb n v ps)).
    { intros n v Hv. split; [rewrite replace_names; exact N|]. intros m t Hin. apply replace_in in Hin as [Hin|E]; [exact (A m t Hin)|]. exact (Hv t (eq_sym E)). }
    destruct (idle o) eqn:Io; [rewrite (idle_ptrs o ps Io); split; assumption|].
    destruct o as [k v|k [v|]|k v|k v|k|b|k|k|k| |j|k| ]; try discriminate Io; cbn [change_ptrs sstep].
    + apply P. intros t ->. apply H. left. reflexivity.
    + apply P. intros t ->. apply H. left. reflexivity.
    + destruct (shas name_eqb k ps); [apply R|apply P]; intros t ->; apply H; left; reflexivity.
    + apply R. intros t ->. apply H. left. reflexivity.
    + split; [apply delete_names; exact N|]. intros m t Hin. exact (A m t (delete_in k ps _ Hin)).
Qed.
Lemma act_once a t : once_act a -> once t -> once (act_on a t).
Proof.
  intros Ha Ht. destruct (fits a t) eqn:F; [|rewrite (not_fits a t F); exact Ht]. apply once_parts. rewrite (act_parts a t F). apply once_parts in Ht as [N A]. exact (change_once a (parts t) Ha N A).
Qed.
Lemma edit_once a : once_act a -> forall ns t, once t -> once (edit_at ns a t).
Proof.
  intros Ha. induction ns as [|n ns IH]; intros t Ht; [exact (act_once a t Ha Ht)|]. cbn [edit_at]. destruct (get_part n t) as [q|] eqn:E; [|exact Ht].
  apply once_parts. rewrite (put_parts n q _ t E (edit_sort ns a q)). pose proof (once_part t n q Ht E) as Hq. apply once_parts in Ht as [N A]. rewrite replace_names. split; [exact N|]. intros m p Hin. apply replace_in in Hin as [Hin|Eq]; [exact (A m p Hin)|]. injection Eq as ->. exact (IH q Hq).
Qed.

(** ** Following getters in memory *)

Lemma rep_lay h r t fp : rep h r (lay t) fp -> exists rs f, nth_error h r = Some (mkObj (bare t) rs) /\ reps h rs (pmap lay (parts t)) f /\ ~ In r f /\ fp = r :: f.
Proof. intros R. rewrite lay_eq in R. inversion R as [? ? rs ? f Hn Rs Hr]; subst. exists rs, f. repeat split; assumption. Qed.
Lemma rep_get h r t fp n : rep h r (lay t) fp ->
  match get_part n t with
  | Some q => exists r' fq, h_get h n r = Some r' /\ rep h r' (lay q) fq /\ incl fq fp
  | None => h_get h n r = None
  end.
Proof.
  intros R. destruct (rep_lay h r t fp R) as [rs [f [Hn [Rs [_ ->]]]]]. unfold h_get. rewrite Hn. cbn [ptrs]. pose proof (reps_get h n rs _ f Rs) as G. rewrite pmap_get in G. unfold get_part.
  destruct (sget name_eqb n (parts t)) as [w|]; destruct (sget name_eqb n rs) as [v|]; cbn [option_map] in G; try contradiction; [|reflexivity].
  destruct G as [g [V I']]. destruct w as [q|]; cbn [option_map] in V; inversion V as [|r' ? ? Rq]; subst; [|reflexivity]. exists r', g. split; [reflexivity|]. split; [exact Rq|]. intros x Hx. right. exact (I' x Hx).
Qed.
Lemma rep_follow h : forall ns r t fp, rep h r (lay t) fp ->
  match follow ns t with
  | Some q => exists r' fq, h_follow h ns r = Some r' /\ rep h r' (lay q) fq /\ incl fq fp
  | None => h_follow h ns r = None
  end.
Proof.
  induction ns as [|n ns IH]; intros r t fp R; cbn [follow h_follow]; [exists r, fp; split; [reflexivity|]; split; [exact R|intros x Hx; exact Hx]|].
  pose proof (rep_get h r t fp n R) as G. destruct (get_part n t) as [q|]; [|rewrite G; reflexivity]. destruct G as [r' [fq [E [Rq Iq]]]]. rewrite E. specialize (IH r' q fq Rq).
  destruct (follow ns q) as [p|]; [|exact IH]. destruct IH as [r2 [f2 [E2 [R2 I2]]]]. exists r2, f2. split; [exact E2|]. split; [exact R2|]. intros x Hx. exact (Iq x (I2 x Hx)).
Qed.
Lemma rep_looks h r t fp : rep h r (lay t) fp -> looks_like h r t.
Proof.
  intros R ns. pose proof (rep_follow h ns r t fp R) as G. destruct (follow ns t) as [q|]; [|exact G]. destruct G as [r' [fq [E [Rq _]]]]. destruct (rep_lay h r' q fq Rq) as [rs [f [Hn [Rs _]]]].
  exists r', (mkObj (bare q) rs). split; [exact E|]. split; [exact Hn|]. split; [reflexivity|]. cbn [ptrs]. rewrite (reps_names h rs _ f Rs). apply pmap_names.
Qed.

(** ** A call *)

Lemma edit_rep a k fv : forall ns h t r fp r', rep h r (lay t) fp -> once t -> crep h k (cmap lay (change_of a)) fv -> disj fv fp -> h_follow h ns r = Some r' ->
  In r' fp /\ exists fp', rep (replace_nth r' (change_obj a k) h) r (lay (edit_at ns a t)) fp' /\ incl fp' (fp ++ fv).
Proof.
  induction ns as [|n ns IH]; intros h t r fp r' R O C D E; destruct (rep_lay h r t fp R) as [rs [f [Hn [Rs [Hr ->]]]]]; cbn [h_follow edit_at] in *.
  - injection E as <-. split; [left; reflexivity|]. destruct (fits a t) eqn:F.
    + destruct (reps_change h k _ fv rs _ f C Rs) as [f' [Rs' I']]; [rewrite pmap_names; exact (once_names t O)|intros x H1 H2; exact (D x H1 (or_intror H2))|].
      assert (Nr : ~ In r f') by (intros X; apply I' in X; apply in_app_or in X as [X|X]; [exact (Hr X)|exact (D r X (or_introl eq_refl))]).
      exists (r :: f'). split; [|intros x [<-|Hx]; [left; reflexivity|right; apply I'; exact Hx]]. rewrite (lay_act a t F). apply (rep_at _ r _ (change_ptrs k rs)); [|apply (reps_frame h _ _ _ _ Rs')|exact Nr].
      * rewrite nth_replace, Nat.eqb_refl, Hn. cbn [option_map]. unfold change_obj. cbn [own ptrs]. rewrite fits_bare, F. reflexivity.
      * intros x Hx. rewrite nth_replace. destruct (Nat.eqb_spec r x) as [->|_]; [contradiction|reflexivity].
    + exists (r :: f). split; [|intros x Hx; apply in_or_app; left; exact Hx]. rewrite (not_fits a t F). apply (rep_frame h _ _ _ _ R). intros x _. rewrite nth_replace. destruct (Nat.eqb_spec r x) as [<-|_]; [|reflexivity]. rewrite Hn. cbn [option_map]. unfold change_obj. cbn [own]. rewrite fits_bare, F. reflexivity.
  - destruct (h_get h n r) as [rc|] eqn:G; [|discriminate E]. unfold h_get in G. rewrite Hn in G. cbn [ptrs] in G. destruct (sget name_eqb n rs) as [v|] eqn:Gs; [|discriminate G]. subst v.
    destruct (reps_split h n rc rs _ f Rs) as [tc [fc [Gt [Rc [Ic K]]]]]; [rewrite pmap_names; exact (once_names t O)|exact Gs|].
    rewrite pmap_get in Gt. unfold get_part. destruct (sget name_eqb n (parts t)) as [[q|]|] eqn:Gq; cbn [option_map] in Gt; try discriminate Gt. injection Gt as <-.
    assert (Eq : get_part n t = Some q) by (unfold get_part; rewrite Gq; reflexivity).
    destruct (IH h q rc fc r' Rc (once_part t n q O Eq) C) as [Hin [fc' [Rc' Ic']]]; [intros x H1 H2; exact (D x H1 (or_intror (Ic x H2)))|exact E|].
    split; [right; exact (Ic r' Hin)|]. destruct (K _ _ fc' Rc') as [f' [Rs' I']].
    + intros x Hx Hc. rewrite nth_replace. destruct (Nat.eqb_spec r' x) as [->|_]; [contradiction|reflexivity].
    + intros x Hx Hf. apply Ic' in Hx. apply in_app_or in Hx as [Hx|Hx]; [exact Hx|]. destruct (D x Hx (or_intror Hf)).
    + assert (I2 : incl f' (f ++ fv)).
      { intros x Hx. apply I' in Hx. apply in_app_or in Hx as [Hx|Hx]; [apply in_or_app; left; exact Hx|]. apply Ic' in Hx. apply in_app_or in Hx as [Hx|Hx]; apply in_or_app; [left; exact (Ic x Hx)|right; exact Hx]. }
      exists (r :: f'). split; [|intros x [<-|Hx]; [left; reflexivity|right; apply I2; exact Hx]]. rewrite (lay_put n q _ t Eq (edit_sort ns a q)). apply (rep_at _ r _ rs); [|exact Rs'|].
      * rewrite nth_replace. destruct (Nat.eqb_spec r' r) as [->|_]; [destruct (Hr (Ic r Hin))|exact Hn].
      * intros X. apply I2 in X. apply in_app_or in X as [X|X]; [exact (Hr X)|exact (D r X (or_introl eq_refl))].
Qed.
