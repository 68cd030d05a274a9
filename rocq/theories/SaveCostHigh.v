(** Proofs of C98: objects in which annotations and extra facets share their names. *)
From Coq Require Import SpecFloat FinFun.
From Verif Require Import Base Num OMap OMapSpec Keys Yaml Values Assign Formats Meta Out Xml Example DataType Marshal Doc Api Library
  TypeFacts Fields Segs WriteSpec Cost CostHigh SaveCost SaveCostProofs.
Local Open Scope nat_scope.

Section Put.
  Context {V : Type}.
  Implicit Types o l p q : list (gkey * V).
  Definition fill l o := fold_left (fun o e => sput gkey_eqb (fst e) (snd e) o) l o.
  Definition stringy l : Prop := forall e, In e l -> exists s, fst e = KStr s.
  Lemma put_looks_app p q : forall o, put_looks o (p ++ q) = put_looks o p + put_looks (fill p o) q.
  Proof. induction p as [|e p IH]; intros o; [reflexivity|]. cbn [app put_looks fill fold_left]. rewrite IH. unfold fill. lia. Qed.
  Lemma fill_keys p : stringy p -> forall o, incl (map fst p ++ map fst o) (map fst (fill p o)).
  Proof.
    induction p as [|e p IH]; intros H o x I; [exact I|]. destruct (H e (or_introl eq_refl)) as [s E]. cbn [fill fold_left]. apply IH; [intros a J; apply H; right; exact J|].
    assert (P : incl (fst e :: map fst o) (map fst (sput gkey_eqb (fst e) (snd e) o))) by (apply put_incl; intros y; rewrite E; apply str_only).
    cbn in I. destruct I as [<-|I]; [apply in_or_app; right; apply P; left; reflexivity|]. apply in_app_or in I as [I|I]; apply in_or_app; [left; exact I|right; apply P; right; exact I].
  Qed.
  Lemma again_high ks q : NoDup ks -> stringy q -> incl (map fst q) ks -> forall o, incl ks (map fst o) -> List.length q * List.length ks <= put_looks o q.
  Proof.
    intros N. induction q as [|e q IH]; intros H J o I; [cbn; lia|]. destruct (H e (or_introl eq_refl)) as [s E]. cbn [List.length put_looks].
    assert (C : List.length ks <= put_cost gkey_eqb (fst e) (mkMap o false)).
    { pose proof (put_high gkey_eqb (fst e) (mkMap o false)) as P. cbn [ents] in P. pose proof (NoDup_incl_length N I). specialize (P ltac:(rewrite E; apply String.eqb_refl) (I _ (J _ (or_introl eq_refl)))). lia. }
    assert (R : List.length q * List.length ks <= put_looks (sput gkey_eqb (fst e) (snd e) o) q).
    { apply IH; [intros a X; apply H; right; exact X|intros a X; apply J; right; exact X|]. intros x X. apply put_incl; [intros y; rewrite E; apply str_only|]. right. apply I. exact X. }
    lia.
  Qed.
  Lemma clash_high h p q t : stringy p -> stringy q -> NoDup (map fst p) -> incl (map fst q) (map fst p) -> List.length q * List.length p <= put_looks [] (h ++ p ++ q ++ t).
  Proof.
    intros Hp Hq N I. rewrite !put_looks_app. pose proof (again_high (map fst p) q N Hq I (fill p (fill h []))) as A. rewrite map_length in A. specialize (A ltac:(intros x X; apply fill_keys; [exact Hp|]; apply in_or_app; left; exact X)). lia.
  Qed.
End Put.

Definition names (k : nat) : list string := map key (seq 0 k).
Definition shared_extra (k : nat) : amap gkey gval := mkMap (map (fun s => (KStr s, GStr "")) (names k)) true.
Definition shared_anns (k : nat) : amap string untyped := mkMap (map (fun s => (s, mkMap [] true)) (names k)) true.
(** built with SetExtraFacets and SetAnnotations, ... *)
Definition shared_type (k : nat) : dtype := setf FAnns (VAnns (shared_anns k)) (setf FExtra (VExtra (shared_extra k)) (new_type TyString)).
Definition shared_api (k : nat) : api := a_set_extra (shared_extra k) (a_set_annotations (shared_anns k) new_api).
Definition shared_lib (k : nat) : library := l_set_extra (shared_extra k) (l_set_annotations (shared_anns k) new_library).

Section High.
  Context {F : FloatIO}.
  Definition extra_puts (k : nat) := put_each (fun k => k) val_work (ents (shared_extra k)).
  Definition ann_puts (k : nat) := put_each KStr untyped_work (ents (shared_anns k)).
  Lemma extra_fst k : map fst (extra_puts k) = map KStr (names k).
  Proof. unfold extra_puts, put_each, shared_extra. cbn [ents]. rewrite !map_map. reflexivity. Qed.
  Lemma ann_fst k : map fst (ann_puts k) = map KStr (names k).
  Proof. unfold ann_puts, put_each, shared_anns. cbn [ents]. rewrite !map_map. reflexivity. Qed.
  Lemma names_once k : NoDup (map KStr (names k)).
  Proof. unfold names. rewrite map_map. apply FinFun.Injective_map_NoDup; [|apply seq_NoDup]. intros i j E. apply key_inj. assert (X : forall s t, KStr s = KStr t -> s = t) by congruence. exact (X _ _ E). Qed.
  Lemma names_length k : List.length (names k) = k.
  Proof. unfold names. rewrite map_length, seq_length. reflexivity. Qed.
  Lemma extra_size k : total (map (fun e : gkey * work => 1 + size (snd e)) (extra_puts k)) = 2 * k.
  Proof.
    unfold extra_puts, put_each, shared_extra. cbn [ents]. rewrite !map_map. cbn [fst snd size val_work items]. transitivity (2 * List.length (names k)); [|rewrite names_length; reflexivity]. induction (names k) as [|s l IH]; [reflexivity|]. cbn [map List.length]. rewrite total_cons, IH. cbn. lia.
  Qed.
  Lemma ann_size k : total (map (fun e : gkey * work => 1 + size (snd e)) (ann_puts k)) = 2 * k.
  Proof.
    unfold ann_puts, put_each, shared_anns. cbn [ents]. rewrite !map_map. cbn [fst snd size untyped_work map_work ents map]. transitivity (2 * List.length (names k)); [|rewrite names_length; reflexivity]. induction (names k) as [|s l IH]; [reflexivity|]. cbn [map List.length]. rewrite total_cons, IH. cbn. lia.
  Qed.
  Definition low (l : list (gkey * work)) := map (fun e => (fst e, looks (snd e))) l.
  Lemma looks_low s h p q t : map fst p = map fst q -> (exists k, map fst p = map KStr (names k)) -> List.length q * List.length p <= looks (Puts s (h ++ p ++ q ++ t)).
  Proof.
    intros E [k K]. cbn [looks]. rewrite !map_app. assert (L : forall l : list (gkey * work), map fst (map (fun e => (fst e, looks (snd e))) l) = map fst l) by (intros l; rewrite map_map; reflexivity).
    assert (S1 : forall l : list (gkey * work), map fst l = map KStr (names k) -> stringy (map (fun e => (fst e, looks (snd e))) l)).
    { intros l Hl e I. apply (in_map fst) in I. rewrite L, Hl in I. apply in_map_iff in I as [x [<- _]]. eauto. }
    pose proof (clash_high (map (fun e => (fst e, looks (snd e))) h) (map (fun e => (fst e, looks (snd e))) p) (map (fun e => (fst e, looks (snd e))) q) (map (fun e => (fst e, looks (snd e))) t)) as H.
    rewrite !map_length in H. etransitivity; [apply H|apply Nat.le_add_r]; [apply S1; exact K|apply S1; rewrite <- E; exact K|rewrite L, K; apply names_once|rewrite !L, E; apply incl_refl].
  Qed.
  Lemma ann_length k : List.length (ann_puts k) = k.
  Proof. rewrite <- (map_length fst), ann_fst, map_length. apply names_length. Qed.
  Lemma extra_length k : List.length (extra_puts k) = k.
  Proof. rewrite <- (map_length fst), extra_fst, map_length. apply names_length. Qed.

  Lemma type_shared k : type_work (shared_type k) = Puts true (put KeyType (one (str_node "string")) ++ extra_puts k ++ ann_puts k ++ []).
  Proof. rewrite app_nil_r. change (type_work (shared_type k)) with (Puts true (type_puts type_work (shared_type k))). unfold shared_type, type_puts. cbn - [extra_puts ann_puts put_each]. unfold extra_puts, ann_puts. rewrite ?app_nil_r. reflexivity. Qed.
  Lemma api_shared k : api_work (shared_api k) = Puts false (put KeyTitle (one (str_node "")) ++ ann_puts k ++ extra_puts k ++ []).
  Proof. rewrite app_nil_r. unfold api_work, shared_api, api_puts. cbn - [extra_puts ann_puts put_each]. unfold extra_puts, ann_puts. rewrite ?app_nil_r. reflexivity. Qed.
  Lemma lib_shared k : lib_work (shared_lib k) = Puts false ([] ++ ann_puts k ++ extra_puts k ++ []).
  Proof. rewrite app_nil_r. unfold lib_work, shared_lib, lib_puts. cbn - [extra_puts ann_puts put_each]. unfold extra_puts, ann_puts. rewrite ?app_nil_r. reflexivity. Qed.

  Lemma size_puts s l : size (Puts s l) = 1 + total (map (fun e : gkey * work => 1 + size (snd e)) l).
  Proof. reflexivity. Qed.
  Lemma type_high k : k * k <= looks (type_work (shared_type k)) /\ size (type_work (shared_type k)) = 4 * k + 3.
  Proof.
    rewrite type_shared. split.
    - pose proof (looks_low true (put KeyType (one (str_node "string"))) (extra_puts k) (ann_puts k) []) as H. rewrite ann_length, extra_length in H. apply H; [rewrite ann_fst; apply extra_fst|exists k; apply extra_fst].
    - rewrite size_puts, !map_app, !total_app, extra_size, ann_size. cbn. lia.
  Qed.
  Lemma api_high k : k * k <= looks (api_work (shared_api k)) /\ size (api_work (shared_api k)) = 4 * k + 3.
  Proof.
    rewrite api_shared. split.
    - pose proof (looks_low false (put KeyTitle (one (str_node ""))) (ann_puts k) (extra_puts k) []) as H. rewrite ann_length, extra_length in H. apply H; [rewrite ann_fst; symmetry; apply extra_fst|exists k; apply ann_fst].
    - rewrite size_puts, !map_app, !total_app, extra_size, ann_size. cbn. lia.
  Qed.
  Lemma lib_high k : k * k <= looks (lib_work (shared_lib k)) /\ size (lib_work (shared_lib k)) = 4 * k + 1.
  Proof.
    rewrite lib_shared. split.
    - pose proof (looks_low false [] (ann_puts k) (extra_puts k) []) as H. rewrite ann_length, extra_length in H. apply H; [rewrite ann_fst; symmetry; apply extra_fst|exists k; apply ann_fst].
    - rewrite size_puts, !map_app, !total_app, extra_size, ann_size. cbn. lia.
  Qed.
End High.
