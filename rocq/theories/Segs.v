(** What the marshal functions put into [out], as one list of pairs. *)
From Coq Require Import SpecFloat.
From Verif Require Import Base Num OMap OMapSpec Keys Yaml Values Assign Meta Out.

Definition puts_all (l : outm) (o : outm) : outm := fold_left (fun o e => oput (fst e) (snd e) o) l o.

Definition opt_seg (k : string) (v : option (res node)) : outm :=
  match v with Some r => [(KStr k, r)] | None => [] end.
Definition if_seg (c : bool) (k : string) (v : res node) : outm := if c then [(KStr k, v)] else [].
Definition all_seg {K V} (kf : K -> gkey) (vf : V -> res node) (l : list (K * V)) : outm :=
  map (fun e => (kf (fst e), vf (snd e))) l.

Lemma puts_all_app a b o : puts_all (a ++ b) o = puts_all b (puts_all a o).
Proof. apply fold_left_app. Qed.
Lemma oput_puts k v o : oput (KStr k) v o = puts_all [(KStr k, v)] o.
Proof. reflexivity. Qed.
Lemma oput_opt_puts k v o : oput_opt (KStr k) v o = puts_all (opt_seg k v) o.
Proof. destruct v; reflexivity. Qed.
Lemma oput_if_puts c k v o : oput_if c (KStr k) v o = puts_all (if_seg c k v) o.
Proof. destruct c; reflexivity. Qed.
Lemma oput_all_puts {K V} (kf : K -> gkey) (vf : V -> res node) l o : oput_all kf vf l o = puts_all (all_seg kf vf l) o.
Proof.
  unfold oput_all, puts_all, all_seg. revert o. induction l as [|e l IH]; intros o; simpl; [reflexivity|]. apply IH.
Qed.

(** No two keys are equal for Go. *)
Fixpoint apart (l : list gkey) : bool :=
  match l with
  | [] => true
  | a :: t => forallb (fun b => negb (gkey_eqb a b)) t && apart t
  end.

Lemma apart_app l l' : apart (l ++ l') = true <->
  apart l = true /\ apart l' = true /\ (forall a b, In a l -> In b l' -> gkey_eqb a b = false).
Proof.
  induction l as [|a l IH]; simpl.
  - split; [intros H; repeat split; auto; intros ? ? []|intros [_ [H _]]; exact H].
  - rewrite !andb_true_iff, forallb_app, andb_true_iff, IH. split.
    + intros [[H1 H2] [H3 [H4 H5]]]. repeat split; auto. intros x y [<-|Hx] Hy; [|auto].
      rewrite forallb_forall in H2. apply negb_true_iff. apply H2. exact Hy.
    + intros [[H1 H2] [H3 H4]]. repeat split; auto.
      apply forallb_forall. intros y Hy. apply negb_true_iff. apply H4; auto.
Qed.

Lemma apart_strings l : apart (map KStr l) = true <-> NoDup l.
Proof.
  induction l as [|a l IH]; simpl; [split; [constructor|reflexivity]|].
  rewrite andb_true_iff, IH, forallb_forall. split.
  - intros [H1 H2]. constructor; [|exact H2]. intros Ha. specialize (H1 (KStr a) (in_map KStr l a Ha)).
    simpl in H1. rewrite String.eqb_refl in H1. discriminate.
  - intros H. inversion H as [|x y Hx Hy]; subst. split; [|exact Hy]. intros b Hb.
    apply in_map_iff in Hb as [c [<- Hc]]. simpl. apply negb_true_iff. apply String.eqb_neq. intros ->. auto.
Qed.

Lemma puts_fresh l : forall o, apart (map fst o ++ map fst l) = true -> puts_all l o = o ++ l.
Proof.
  induction l as [|e l IH]; intros o H; simpl; [symmetry; apply app_nil_r|].
  unfold puts_all in *. simpl. unfold oput at 2. rewrite sput_fresh.
  - rewrite IH; [rewrite <- app_assoc; destruct e; reflexivity|]. rewrite map_app, <- app_assoc. exact H.
  - intros e' He. apply apart_app in H as [_ [_ H]]. apply H; [apply in_map; exact He|left; reflexivity].
Qed.

Lemma puts_fresh_nil l : apart (map fst l) = true -> puts_all l [] = l.
Proof. intros H. apply (puts_fresh l []). exact H. Qed.

(** One pair written. *)
Definition wrote {F : FloatIO} (e : gkey * res node) (p : node * node) : Prop :=
  key_node (fst e) = Ok (fst p) /\ snd e = Ok (snd p).

Lemma out_to_yaml_ok {F : FloatIO} o n : out_to_yaml o = Ok n <-> exists l, n = Map TMap l /\ Forall2 wrote o l.
Proof.
  unfold out_to_yaml, map_to_yaml. cbn [oord ents]. rewrite bind_ok. split.
  - intros [l [Hl E]]. injection E as <-. exists l. split; [reflexivity|]. apply map_res_entries in Hl. exact Hl.
  - intros [l [-> Hl]]. exists l. split; [|reflexivity]. apply map_res_all. induction Hl as [|e p o l [H1 H2] _ IH]; constructor; auto.
    unfold entry_node. rewrite H1. cbn. rewrite H2. destruct p; reflexivity.
Qed.

Lemma wrote_opt {F : FloatIO} k v l : Forall2 wrote (opt_seg k v) l <->
  match v with
  | None => l = []
  | Some r => exists n, r = Ok n /\ l = [(str_node k, n)]
  end.
Proof.
  destruct v as [r|]; simpl; split; intros H.
  - inversion H as [|e p x y [H1 H2] H3]; subst. inversion H3; subst. destruct p as [a b]; cbn in *.
    injection H1 as <-. exists b. auto.
  - destruct H as [n [-> ->]]. constructor; [split; reflexivity|constructor].
  - inversion H; reflexivity.
  - subst; constructor.
Qed.

Lemma wrote_if {F : FloatIO} c k v l : Forall2 wrote (if_seg c k v) l <->
  if c then exists n, v = Ok n /\ l = [(str_node k, n)] else l = [].
Proof.
  destruct c; [exact (wrote_opt k (Some v) l)|]. exact (wrote_opt k None l).
Qed.
