(** Examples: C36, C37, C38 and their part of C58. *)
From Coq Require Import SpecFloat Permutation.
From Verif Require Import Base Num OMap OMapSpec Keys Yaml Values Assign Formats Meta Out Xml Example DataType Marshal
  AssignProofs TypeFacts Fields FieldProofs FacetSpec FacetProofs DocProofs TypeWrite OrderProofs PathProofs Lens Segs.

(** ** Specification *)

(** The value a node denotes as an example of a kind. *)
Definition example_value {F : FloatIO} (k : dkind) (n : node) (v : gval) : Prop :=
  match k with
  | TyString | TyDateOnly | TyDatetime | TyDatetimeOnly | TyTimeOnly => exists s, denotes_string n s /\ v = GStr s
  | TyBool => exists b, denotes_bool n b /\ v = GBool b
  | TyInteger => exists z, denotes_int n z /\ v = GInt z
  | TyNumber => exists f, denotes_float n f /\ v = GFloat f
  | TyArray => exists t l, n = Seq t l /\ v = GList (map GNode l)
  | TyAny | TyCustom | TyFile | TyObject | TyUnion => v = GNode n
  | TyNil | TyInclude => False
  end.

(** A pair whose key is the given string. *)
Definition named_key (s : string) (p : node * node) : bool := is_string (fst p) && String.eqb (value (fst p)) s.

Definition ex_names : list string := ["displayName"; "description"; "strict"; "value"].

(** A pair that is neither an annotation nor one of the known ones. *)
Definition ex_extra_key (p : node * node) : bool :=
  negb (is_annotation_key (fst p)) && negb (is_string (fst p) && existsb (String.eqb (value (fst p))) ex_names).

(** Given a list of pairs, the component [o] of an example is what the last pair named [s] says, or [d]. *)
Definition said {B} (l : list (node * node)) (s : string) (R : node -> B -> Prop) (d o : B) : Prop :=
  match last_of (named_key s) l with Some p => R (snd p) o | None => o = d end.

Definition kputs {V} (kvs : list (gkey * V)) (m : amap gkey V) : amap gkey V :=
  fold_left (fun m kv => kput (fst kv) (snd kv) m) kvs m.

Definition expanded_example {F : FloatIO} (kd : dkind) (l : list (node * node)) (e : ex) : Prop :=
  said l "displayName" (fun n o => exists s, denotes_string n s /\ o = Some s) None (ex_display e) /\
  said l "description" (fun n o => exists s, denotes_string n s /\ o = Some s) None (ex_descr e) /\
  said l "strict" (fun n o => denotes_bool n o) true (ex_strict e) /\
  said l "value" (fun n o => exists v, example_value kd n v /\ o = Some v) None (ex_value e) /\
  (exists kvs, Forall2 ann_entry (filter (fun p => is_annotation_key (fst p)) l) kvs /\
               ex_anns e = mputs kvs (mkMap [] false)) /\
  (exists kvs, Forall2 (fun p kv => to_scalar (fst p) = Ok (fst kv) /\ snd kv = GNode (snd p)) (filter ex_extra_key l) kvs /\
               ex_extra e = kputs kvs (mkMap [] false)).

(** Acceptable pairs. *)
Definition ex_acceptable {F : FloatIO} (kd : dkind) (p : node * node) : Prop :=
  ~ denotes_string (fst p) "" /\
  (is_annotation_key (fst p) = true -> exists a, read_annotation (snd p) = Ok a) /\
  (named_key "displayName" p = true -> exists s, denotes_string (snd p) s) /\
  (named_key "description" p = true -> exists s, denotes_string (snd p) s) /\
  (named_key "strict" p = true -> exists b, denotes_bool (snd p) b) /\
  (named_key "value" p = true -> exists v, example_value kd (snd p) v) /\
  (ex_extra_key p = true -> exists k, to_scalar (fst p) = Ok k).

(** ** Reading *)

Lemma ex_val_iff {F : FloatIO} k n v : ex_val k n = Ok v <-> example_value k n v.
Proof.
  assert (HS : (do s <- to_str n; Ok (GStr s)) = Ok v <-> exists s, denotes_string n s /\ v = GStr s).
  { rewrite bind_ok. split; intros [s [A B]]; exists s; [injection B as <-|subst]; split; auto; apply denotes_string_iff; exact A. }
  assert (HB : (do s <- to_bool n; Ok (GBool s)) = Ok v <-> exists s, denotes_bool n s /\ v = GBool s).
  { rewrite bind_ok. split; intros [s [A B]]; exists s; [injection B as <-|subst]; split; auto; apply denotes_bool_iff; exact A. }
  assert (HI : (do s <- to_int n; Ok (GInt s)) = Ok v <-> exists s, denotes_int n s /\ v = GInt s).
  { rewrite bind_ok. split; intros [s [A B]]; exists s; [injection B as <-|subst]; split; auto; apply denotes_int_iff; exact A. }
  assert (HF : (do s <- to_float n; Ok (GFloat s)) = Ok v <-> exists s, denotes_float n s /\ v = GFloat s).
  { rewrite bind_ok. split; intros [s [A B]]; exists s; [injection B as <-|subst]; split; auto; apply denotes_float_iff; exact A. }
  destruct k; cbn [ex_val example_value]; try assumption; try (split; congruence).
  - destruct n as [t s|t l|t l]; (split; [intros E; try discriminate; injection E as <-; eauto|]);
      intros [t' [l' [E ->]]]; try discriminate. injection E as <- <-. reflexivity.
  - split; [discriminate|intros []].
  - split; [discriminate|intros []].
Qed.

(** The possible effects of one pair. *)
Inductive ex_step {F : FloatIO} (kd : dkind) (e : ex) (p : node * node) : ex -> Prop :=
| es_ann a : is_annotation_key (fst p) = true -> read_annotation (snd p) = Ok a ->
    ex_step kd e p (mkEx (ex_display e) (ex_descr e) (mput (value (fst p)) a (ex_anns e)) (ex_value e) (ex_strict e) (ex_extra e))
| es_display s : named_key "displayName" p = true -> denotes_string (snd p) s ->
    ex_step kd e p (mkEx (Some s) (ex_descr e) (ex_anns e) (ex_value e) (ex_strict e) (ex_extra e))
| es_descr s : named_key "description" p = true -> denotes_string (snd p) s ->
    ex_step kd e p (mkEx (ex_display e) (Some s) (ex_anns e) (ex_value e) (ex_strict e) (ex_extra e))
| es_strict b : named_key "strict" p = true -> denotes_bool (snd p) b ->
    ex_step kd e p (mkEx (ex_display e) (ex_descr e) (ex_anns e) (ex_value e) b (ex_extra e))
| es_value v : named_key "value" p = true -> example_value kd (snd p) v ->
    ex_step kd e p (mkEx (ex_display e) (ex_descr e) (ex_anns e) (Some v) (ex_strict e) (ex_extra e))
| es_extra k : ex_extra_key p = true -> to_scalar (fst p) = Ok k ->
    ex_step kd e p (ex_set_extra e k (snd p)).

Lemma run_assign_iff {A B} (conv : node -> res A) (g : A -> B) n ptr v :
  run_assign (assign_with conv g n ptr) = Ok v <-> exists a, conv n = Ok a /\ v = g a.
Proof.
  rewrite run_assign_with, bind_ok. split; intros [a [H1 H2]]; exists a; split; auto; congruence.
Qed.

(** The classes of keys exclude each other. *)
Lemma key_classes p :
  {is_annotation_key (fst p) = true /\ (forall s, In s ex_names -> named_key s p = false) /\ ex_extra_key p = false} +
  {exists s, In s ex_names /\ named_key s p = true /\ (forall s', s' <> s -> named_key s' p = false) /\
     is_annotation_key (fst p) = false /\ ex_extra_key p = false} +
  {ex_extra_key p = true /\ is_annotation_key (fst p) = false /\ (forall s, In s ex_names -> named_key s p = false)}.
Proof.
  unfold ex_extra_key, named_key. destruct (is_annotation_key (fst p)) eqn:Ea.
  - left; left. split; [reflexivity|]. split; [|reflexivity]. intros s Hs. apply andb_false_intro2.
    apply String.eqb_neq. intros E. unfold is_annotation_key in Ea. rewrite E in Ea. apply andb_true_iff in Ea as [_ Ea].
    simpl in Hs. repeat destruct Hs as [<-|Hs]; try discriminate Ea. destruct Hs.
  - destruct (is_string (fst p) && existsb (String.eqb (value (fst p))) ex_names) eqn:En.
    + left; right. apply andb_true_iff in En as [Es En]. apply existsb_exists in En as [s [Hs E]].
      apply String.eqb_eq in E. exists s. rewrite Es, E. simpl. rewrite String.eqb_refl. repeat split; auto.
      intros s' N. apply String.eqb_neq. congruence.
    + right. split; [reflexivity|]. split; [reflexivity|]. intros s Hs. apply andb_false_iff in En as [En|En].
      * rewrite En. reflexivity.
      * apply andb_false_intro2. apply not_true_iff_false. intros E. apply not_true_iff_false in En. apply En.
        apply existsb_exists. eauto.
Qed.

Lemma ex_assign_iff {F : FloatIO} kd e p e' :
  ex_assign kd e p = Ok e' <-> ~ denotes_string (fst p) "" /\ ex_step kd e p e'.
Proof.
  assert (Hnot : is_string (fst p) = false -> ~ denotes_string (fst p) "").
  { intros E [T _]. unfold is_string in E. rewrite T in E. discriminate. }
  assert (Hstr : is_string (fst p) = true -> node_tag (fst p) = TStr).
  { unfold is_string. destruct (node_tag (fst p)); congruence. }
  unfold ex_assign. destruct (is_string (fst p)) eqn:Es; cbn [negb].
  2:{ rewrite bind_ok. split.
      - intros [k [Hk E]]. injection E as <-. split; [auto|]. apply es_extra; [|exact Hk].
        unfold ex_extra_key, is_annotation_key. rewrite Es. reflexivity.
      - intros [_ H]. destruct H as [a H _|s H _|s H _|b H _|v H _|k H Hk];
          try (unfold named_key in H; rewrite Es in H; discriminate H); try (unfold is_annotation_key in H; rewrite Es in H; discriminate H).
        exists k. auto. }
  specialize (Hstr eq_refl). destruct (value (fst p)) as [|c r] eqn:Ev.
  { split; [discriminate|]. intros [H _]. exfalso. apply H. split; auto. }
  assert (Hne : ~ denotes_string (fst p) "") by (intros [_ T]; congruence).
  assert (Han : is_annotation_key (fst p) = Ascii.eqb c "(") by (unfold is_annotation_key; rewrite Es, Ev; reflexivity).
  destruct (Ascii.eqb c "(") eqn:Ec.
  { rewrite bind_ok. split.
    - intros [a [Ha E]]. injection E as <-. split; [exact Hne|]. rewrite <- Ev. apply es_ann; assumption.
    - intros [_ H]. assert (Hn : forall s, In s ex_names -> named_key s p = false).
      { destruct (key_classes p) as [[[_ [H0 _]]|[s [_ [_ [_ [H0 _]]]]]]|[_ [H0 _]]]; [exact H0|congruence|congruence]. }
      destruct H as [a H Ha|s H _|s H _|b H _|v H _|k H Hk];
        try (rewrite Hn in H by (simpl; auto); discriminate H).
      + exists a. rewrite <- Ev. auto.
      + unfold ex_extra_key in H. rewrite Han in H. discriminate H. }
  rewrite <- Ev. clear c r Ev Ec.
  assert (Hnk : forall s, named_key s p = String.eqb (value (fst p)) s) by (intros s; unfold named_key; rewrite Es; reflexivity).
  destruct (String.eqb_spec (value (fst p)) "displayName") as [E1|N1].
  { unfold as_string_ptr. rewrite bind_ok. split.
    - intros [v [Hv E]]. injection E as <-. split; [exact Hne|]. apply run_assign_iff in Hv as [s [Hs ->]].
      apply es_display; [rewrite Hnk, E1; reflexivity|apply denotes_string_iff; exact Hs].
    - intros [_ H]. destruct H as [a H _|s H Hs|s H _|b H _|v H _|k H _]; try congruence;
        try (rewrite Hnk, E1 in H; discriminate H);
        try (unfold ex_extra_key in H; rewrite Es, E1, Han in H; discriminate H).
      exists (Some s). split; [|reflexivity]. apply run_assign_iff. exists s. split; [apply denotes_string_iff; exact Hs|reflexivity]. }
  destruct (String.eqb_spec (value (fst p)) "description") as [E2|N2].
  { unfold as_string_ptr. rewrite bind_ok. split.
    - intros [v [Hv E]]. injection E as <-. split; [exact Hne|]. apply run_assign_iff in Hv as [s [Hs ->]].
      apply es_descr; [rewrite Hnk, E2; reflexivity|apply denotes_string_iff; exact Hs].
    - intros [_ H]. destruct H as [a H _|s H _|s H Hs|b H _|v H _|k H _]; try congruence;
        try (rewrite Hnk, E2 in H; discriminate H);
        try (unfold ex_extra_key in H; rewrite Es, E2, Han in H; discriminate H).
      exists (Some s). split; [|reflexivity]. apply run_assign_iff. exists s. split; [apply denotes_string_iff; exact Hs|reflexivity]. }
  destruct (String.eqb_spec (value (fst p)) "strict") as [E3|N3].
  { unfold as_bool. rewrite bind_ok. split.
    - intros [v [Hv E]]. injection E as <-. split; [exact Hne|]. apply run_assign_iff in Hv as [s [Hs ->]].
      apply es_strict; [rewrite Hnk, E3; reflexivity|apply denotes_bool_iff; exact Hs].
    - intros [_ H]. destruct H as [a H _|s H _|s H _|b H Hb|v H _|k H _]; try congruence;
        try (rewrite Hnk, E3 in H; discriminate H);
        try (unfold ex_extra_key in H; rewrite Es, E3, Han in H; discriminate H).
      exists b. split; [|reflexivity]. apply run_assign_iff. exists b. split; [apply denotes_bool_iff; exact Hb|reflexivity]. }
  destruct (String.eqb_spec (value (fst p)) "value") as [E4|N4].
  { rewrite bind_ok. split.
    - intros [v [Hv E]]. injection E as <-. split; [exact Hne|]. apply ex_val_iff in Hv.
      apply es_value; [rewrite Hnk, E4; reflexivity|exact Hv].
    - intros [_ H]. destruct H as [a H _|s H _|s H _|b H _|v H Hv|k H _]; try congruence;
        try (rewrite Hnk, E4 in H; discriminate H);
        try (unfold ex_extra_key in H; rewrite Es, E4, Han in H; discriminate H).
      exists v. split; [|reflexivity]. apply ex_val_iff. exact Hv. }
  rewrite bind_ok. split.
  - intros [k [Hk E]]. injection E as <-. split; [exact Hne|]. apply es_extra; [|exact Hk].
    unfold ex_extra_key. rewrite Es, Han. apply String.eqb_neq in N1, N2, N3, N4. simpl. rewrite N1, N2, N3, N4. reflexivity.
  - intros [_ H]. apply String.eqb_neq in N1, N2, N3, N4.
    destruct H as [a H _|s H _|s H _|b H _|v H _|k H Hk]; try congruence; try (rewrite Hnk in H; congruence). eauto.
Qed.

Lemma ex_accept {F : FloatIO} kd e p : (exists e', ex_assign kd e p = Ok e') <-> ex_acceptable kd p.
Proof.
  unfold ex_acceptable. split.
  - intros [e' H]. apply ex_assign_iff in H as [Hn H]. split; [exact Hn|].
    destruct (key_classes p) as [[[A [B C]]|[s0 [S0 [A [B [C D]]]]]]|[A [B C]]]; destruct H as [a H Ha|s H Ha|s H Ha|b H Ha|v H Ha|k H Ha];
      try congruence; try (rewrite B in H by (simpl; auto); discriminate); try (rewrite C in H by (simpl; auto); discriminate).
    all: repeat match goal with |- _ /\ _ => split end; intros Hx; try congruence; eauto;
      try (rewrite B in Hx by (simpl; auto); discriminate Hx); try (rewrite C in Hx by (simpl; auto); discriminate Hx).
    all: try (destruct (string_dec s0 "displayName") as [->|N1]; [rewrite ?B in Hx by discriminate; rewrite ?B in H by discriminate; congruence || eauto|]).
    all: try (destruct (string_dec s0 "description") as [->|N2]; [rewrite ?B in Hx by discriminate; rewrite ?B in H by discriminate; congruence || eauto|]).
    all: try (destruct (string_dec s0 "strict") as [->|N3]; [rewrite ?B in Hx by discriminate; rewrite ?B in H by discriminate; congruence || eauto|]).
    all: try (destruct (string_dec s0 "value") as [->|N4]; [rewrite ?B in Hx by discriminate; rewrite ?B in H by discriminate; congruence || eauto|]).
    all: simpl in S0; intuition congruence.
  - intros [Hn [Ha [H1 [H2 [H3 [H4 H5]]]]]].
    destruct (key_classes p) as [[[A [B C]]|[s0 [S0 [A [B [C D]]]]]]|[A [B C]]].
    + destruct (Ha A) as [a Hr]. eexists. apply ex_assign_iff. split; [exact Hn|]. apply es_ann; eassumption.
    + simpl in S0. destruct S0 as [<-|[<-|[<-|[<-|[]]]]].
      * destruct (H1 A) as [s Hs]. eexists. apply ex_assign_iff. split; [exact Hn|]. apply es_display; eassumption.
      * destruct (H2 A) as [s Hs]. eexists. apply ex_assign_iff. split; [exact Hn|]. apply es_descr; eassumption.
      * destruct (H3 A) as [s Hs]. eexists. apply ex_assign_iff. split; [exact Hn|]. apply es_strict; eassumption.
      * destruct (H4 A) as [s Hs]. eexists. apply ex_assign_iff. split; [exact Hn|]. apply es_value; eassumption.
    + destruct (H5 A) as [k Hk]. eexists. apply ex_assign_iff. split; [exact Hn|]. apply es_extra; eassumption.
Qed.

Lemma fold_ann_entries (l : list (node * node)) : forall m v,
  fold_res (fun m p => do a <- read_annotation (snd p); Ok (mput (value (fst p)) a m)) m l = Ok v ->
  exists kvs, Forall2 ann_entry l kvs /\ v = mputs kvs m.
Proof.
  induction l as [|p l IH]; intros m v H; cbn in H.
  - injection H as <-. exists []. split; [constructor|reflexivity].
  - apply bind_ok in H as [m1 [H1 H]]. apply bind_ok in H1 as [a [Ha H1]]. injection H1 as <-.
    apply IH in H as [kvs [Hl ->]]. exists ((text p, a) :: kvs). split; [|reflexivity].
    constructor; [split; [reflexivity|exact Ha]|exact Hl].
Qed.

Lemma fold_extra_entries {F : FloatIO} (l : list (node * node)) : forall m v,
  fold_res (fun m p => do k <- to_scalar (fst p); Ok (kput k (GNode (snd p)) m)) m l = Ok v ->
  exists kvs, Forall2 (fun p kv => to_scalar (fst p) = Ok (fst kv) /\ snd kv = GNode (snd p)) l kvs /\ v = kputs kvs m.
Proof.
  induction l as [|p l IH]; intros m v H; cbn in H.
  - injection H as <-. exists []. split; [constructor|reflexivity].
  - apply bind_ok in H as [m1 [H1 H]]. apply bind_ok in H1 as [k [Hk H1]]. injection H1 as <-.
    apply IH in H as [kvs [Hl ->]]. exists ((k, GNode (snd p)) :: kvs). split; [|reflexivity].
    constructor; [split; [exact Hk|reflexivity]|exact Hl].
Qed.

Ltac ex_part :=
  let s := fresh "s" in let p := fresh "p" in let s' := fresh "s'" in let H := fresh "H" in let Hn := fresh "Hn" in
  intros s p s' H; apply ex_assign_iff in H as [Hn H];
  let A := fresh "A" in let B := fresh "B" in let C := fresh "C" in let D := fresh "D" in let s0 := fresh "s0" in let S0 := fresh "S0" in
  destruct (key_classes p) as [[[A [B C]]|[s0 [S0 [A [B [C D]]]]]]|[A [B C]]];
  [ rewrite ?(B "displayName"), ?(B "description"), ?(B "strict"), ?(B "value") by (simpl; auto)
  | simpl in S0; destruct S0 as [<-|[<-|[<-|[<-|[]]]]]; rewrite ?A, ?B by discriminate
  | rewrite ?(C "displayName"), ?(C "description"), ?(C "strict"), ?(C "value") by (simpl; auto) ];
  rewrite ?A, ?B, ?C, ?D by (simpl; auto; discriminate);
  destruct H as [a H Ha|s1 H Ha|s1 H Ha|b H Ha|v H Ha|k H Ha];
  try congruence; try (rewrite B in H by (simpl; auto; discriminate); discriminate H);
  try (rewrite C in H by (simpl; auto; discriminate); discriminate H);
  cbn; eauto.

Lemma ex_expanded {F : FloatIO} kd t l e : read_ex kd (Map t l) = Ok e -> expanded_example kd l e.
Proof.
  unfold read_ex, ex_unmarshal. intros H. unfold expanded_example, said.
  repeat match goal with |- _ /\ _ => split end.
  - apply (lens_last (ex_assign kd) ex_display (named_key "displayName") (fun p o => exists s, denotes_string (snd p) s /\ o = Some s)) in H; [exact H|].
    ex_part.
  - apply (lens_last (ex_assign kd) ex_descr (named_key "description") (fun p o => exists s, denotes_string (snd p) s /\ o = Some s)) in H; [exact H|].
    ex_part.
  - apply (lens_last (ex_assign kd) ex_strict (named_key "strict") (fun p o => denotes_bool (snd p) o)) in H; [exact H|].
    ex_part.
  - apply (lens_last (ex_assign kd) ex_value (named_key "value") (fun p o => exists v, example_value kd (snd p) v /\ o = Some v)) in H; [exact H|].
    ex_part.
  - apply (fold_lens (ex_assign kd) ex_anns (fun p => is_annotation_key (fst p))
             (fun m p => do a <- read_annotation (snd p); Ok (mput (value (fst p)) a m))) in H.
    + apply fold_ann_entries in H. exact H.
    + ex_part. rewrite Ha. reflexivity.
  - apply (fold_lens (ex_assign kd) ex_extra ex_extra_key
             (fun m p => do k <- to_scalar (fst p); Ok (kput k (GNode (snd p)) m))) in H.
    + apply fold_extra_entries in H. exact H.
    + ex_part. rewrite Ha. reflexivity.
Qed.

(** An expanded example is determined by its pairs. *)
Lemma denotes_string_fun n s s' : denotes_string n s -> denotes_string n s' -> s = s'.
Proof. intros [_ A] [_ B]. congruence. Qed.
Lemma denotes_bool_fun n s s' : denotes_bool n s -> denotes_bool n s' -> s = s'.
Proof. intros A B. apply denotes_bool_iff in A, B. congruence. Qed.
Lemma example_value_fun {F : FloatIO} k n v v' : example_value k n v -> example_value k n v' -> v = v'.
Proof. intros A B. apply ex_val_iff in A, B. congruence. Qed.

Lemma Forall2_fun {A B} (P : A -> B -> Prop) l a b : (forall x y z, P x y -> P x z -> y = z) ->
  Forall2 P l a -> Forall2 P l b -> a = b.
Proof.
  intros H Ha. revert b. induction Ha as [|x y l a Hx _ IH]; intros b Hb; inversion Hb as [|x' y' l' b' Hx' Hb']; subst; [reflexivity|].
  f_equal; [eapply H; eassumption|apply IH; assumption].
Qed.

Lemma said_fun {B} l s (R : node -> B -> Prop) d o o' : (forall n a b, R n a -> R n b -> a = b) ->
  said l s R d o -> said l s R d o' -> o = o'.
Proof. unfold said. intros H. destruct (last_of _ _) as [p|]; [apply H|congruence]. Qed.

Lemma ann_entry_fun e a b : ann_entry e a -> ann_entry e b -> a = b.
Proof. destruct a, b; intros [A B] [C D]; cbn in *; congruence. Qed.

Lemma expanded_fun {F : FloatIO} kd l e e' : expanded_example kd l e -> expanded_example kd l e' -> e = e'.
Proof.
  intros [A [B [C [D [[k1 [E E']] [k2 [G G']]]]]]] [A1 [B1 [C1 [D1 [[k3 [E1 E1']] [k4 [G1 G1']]]]]]].
  destruct e as [di de an va st ex0], e' as [di' de' an' va' st' ex0']. cbn in *.
  assert (k1 = k3) by (eapply Forall2_fun; [|exact E|exact E1]; apply ann_entry_fun).
  assert (k2 = k4) by (eapply Forall2_fun; [|exact G|exact G1]; intros x [] [] [Q1 Q2] [Q3 Q4]; cbn in *; congruence).
  subst. f_equal.
  - eapply said_fun; [|exact A|exact A1]. intros n a b [s [P ->]] [s' [P' ->]]. f_equal. eapply denotes_string_fun; eassumption.
  - eapply said_fun; [|exact B|exact B1]. intros n a b [s [P ->]] [s' [P' ->]]. f_equal. eapply denotes_string_fun; eassumption.
  - eapply said_fun; [|exact D|exact D1]. intros n a b [s [P ->]] [s' [P' ->]]. f_equal. eapply example_value_fun; eassumption.
  - eapply said_fun; [|exact C|exact C1]. intros n a b P P'. eapply denotes_bool_fun; eassumption.
Qed.

Lemma ex_expanded_iff {F : FloatIO} kd t l e : read_ex kd (Map t l) = Ok e <->
  Forall (ex_acceptable kd) l /\ expanded_example kd l e.
Proof.
  split.
  - intros H. split; [|exact (ex_expanded kd t l e H)].
    apply (fold_accept (ex_assign kd) (ex_acceptable kd) (ex_accept kd) l new_ex). exists e. exact H.
  - intros [H1 H2]. apply (fold_accept (ex_assign kd) (ex_acceptable kd) (ex_accept kd) l new_ex) in H1 as [e' H].
    assert (e' = e) by (eapply expanded_fun; [apply (ex_expanded kd t)|]; eassumption). subst. exact H.
Qed.

Lemma ex_direct {F : FloatIO} kd n e : is_map n = false ->
  (read_ex kd n = Ok e <-> exists v, example_value kd n v /\ e = mkEx None None (mkMap [] false) (Some v) true (mkMap [] false)).
Proof.
  intros Hn. unfold read_ex, ex_unmarshal.
  assert (H : (do v <- ex_val kd n; Ok (mkEx (ex_display new_ex) (ex_descr new_ex) (ex_anns new_ex) (Some v) (ex_strict new_ex) (ex_extra new_ex))) = Ok e <->
    exists v, example_value kd n v /\ e = mkEx None None (mkMap [] false) (Some v) true (mkMap [] false)).
  { rewrite bind_ok. split; intros [v [A B]]; exists v; [injection B as <-|subst e]; (split; [apply ex_val_iff; exact A|reflexivity]). }
  destruct n; [exact H|exact H|discriminate].
Qed.

(** ** Repeated keys *)

Lemma kputs_skip {V} A (e1 e2 : gkey * V) B C m : fst e1 = fst e2 -> gkey_eqb (fst e2) (fst e2) = true ->
  kputs (A ++ e1 :: B ++ e2 :: C) m = kputs (A ++ B ++ e2 :: C) m.
Proof.
  intros E Hr. unfold kputs. rewrite !(fold_left_app _ A).
  match goal with |- fold_left _ _ ?x = _ => generalize x end. clear m. intros m.
  assert (Hv : forall (l : list (gkey * V)) m, fold_left (fun m kv => kput (fst kv) (snd kv) m) l m =
    mkMap (fold_left (fun x e => sput gkey_eqb (fst e) (snd e) x) l (ents m)) (oord m)).
  { intros l. induction l as [|e l IH]; intros [es b]; [reflexivity|]. cbn [fold_left]. rewrite IH. reflexivity. }
  rewrite !Hv. f_equal.
  apply (puts_skip gkey_eqb (fun e : gkey * V => fst e) (fun e : gkey * V => snd e)); assumption.
Qed.

(** A key that Go's maps can find again. *)
Definition findable {F : FloatIO} (key : node) : Prop := forall k, to_scalar key = Ok k -> gkey_nan k = false.

Lemma findable_refl k : gkey_nan k = false -> (forall n, k <> KUnhash n) -> gkey_eqb k k = true.
Proof.
  intros H Hu. apply (gkey_proper_good k). unfold gkey_proper. rewrite H.
  destruct k; try reflexivity. destruct (Hu n eq_refl).
Qed.

Lemma to_scalar_hashable {F : FloatIO} n k : to_scalar n = Ok k -> forall u, k <> KUnhash u.
Proof.
  intros H u ->. destruct n as [t v|t l|t l]; try discriminate. destruct t; cbn in H; try discriminate;
    apply bind_ok in H as [z [_ H]]; discriminate.
Qed.

Lemma ex_repeated {F : FloatIO} kd t pre key v1 mid v2 post e : findable key ->
  read_ex kd (Map t (pre ++ (key, v1) :: mid ++ (key, v2) :: post)) = Ok e ->
  read_ex kd (Map t (pre ++ mid ++ (key, v2) :: post)) = Ok e.
Proof.
  intros Hfind H. apply ex_expanded_iff in H as [Hacc H]. apply ex_expanded_iff. split.
  { apply Forall_app in Hacc as [H1 H2]. inversion H2; subst. apply Forall_app. split; assumption. }
  destruct H as [A [B [C [D [[k1 [E E']] [k2 [G G']]]]]]]. unfold expanded_example, said in *.
  assert (Hl : forall s, last_of (named_key s) (pre ++ mid ++ (key, v2) :: post) =
                         last_of (named_key s) (pre ++ (key, v1) :: mid ++ (key, v2) :: post)).
  { intros s. symmetry. apply last_of_skip. exact (fun H => H). }
  rewrite !Hl. repeat (split; [assumption|]). split.
  - rewrite !filter_app in *. cbn [filter fst] in *. rewrite !filter_app in *. cbn [filter fst] in *.
    destruct (is_annotation_key key); [|exists k1; auto].
    apply Forall2_app_inv_l in E as [ka [kb [HA [H1 ->]]]]. inversion H1 as [|x kv1 y k3 P1 H2]; subst.
    apply Forall2_app_inv_l in H2 as [kc [kd' [HB [HC ->]]]]. inversion HC as [|x kv2 y kc' P2 H3]; subst.
    exists (ka ++ kc ++ kv2 :: kc'). split.
    + apply Forall2_app; [exact HA|]. apply Forall2_app; [exact HB|]. constructor; assumption.
    + rewrite E'. apply mputs_skip. destruct P1 as [P1 _], P2 as [P2 _]. rewrite P1, P2. reflexivity.
  - rewrite !filter_app in *. cbn [filter] in *. rewrite !filter_app in *. cbn [filter] in *.
    assert (Ex : ex_extra_key (key, v1) = ex_extra_key (key, v2)) by reflexivity. rewrite Ex in *.
    destruct (ex_extra_key (key, v2)); [|exists k2; auto].
    apply Forall2_app_inv_l in G as [ka [kb [HA [H1 ->]]]]. inversion H1 as [|x kv1 y k3 P1 H2]; subst.
    apply Forall2_app_inv_l in H2 as [kc [kd' [HB [HC ->]]]]. inversion HC as [|x kv2 y kc' P2 H3]; subst.
    exists (ka ++ kc ++ kv2 :: kc'). split.
    + apply Forall2_app; [exact HA|]. apply Forall2_app; [exact HB|]. constructor; assumption.
    + rewrite G'. destruct P1 as [P1 _], P2 as [P2 _]. cbn [fst] in *. apply kputs_skip; [congruence|].
      apply findable_refl; [apply Hfind; exact P2|eapply to_scalar_hashable; exact P2].
Qed.
