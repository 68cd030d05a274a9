(** Loading accepts exactly the documents of the grammar (GrammarSpec.v), and panics exactly at those said there. *)
From Coq Require Import SpecFloat.
From Verif Require Import Base Num OMap OMapSpec Keys Yaml Values Assign Formats Meta Out Xml Example DataType Doc Api Library
  AssignProofs TypeFacts Fields FieldProofs FacetSpec FacetProofs DocProofs Crash WriteSpec WriteProofs GrammarSpec.

(** The outcome is a value exactly if [G] and a panic exactly if [D]. *)
Definition verdict {A} (r : res A) (G D : Prop) : Prop := ((exists a, r = Ok a) <-> G) /\ (r = Panic <-> D).

Lemma verdict_iff {A} (r : res A) (G D G' D' : Prop) : (G <-> G') -> (D <-> D') -> verdict r G D -> verdict r G' D'.
Proof. unfold verdict. tauto. Qed.

Lemma verdict_bind {A B} (r : res A) (g : A -> B) G D : verdict r G D -> verdict (do a <- r; Ok (g a)) G D.
Proof.
  intros [HG HD]. split.
  - rewrite <- HG. split; intros [b E]; [apply bind_ok in E as [a [E _]]; eauto|]. rewrite E. cbn. eauto.
  - rewrite <- HD, bind_panic. split; [|auto]. intros [E|[a [_ E]]]; [exact E|discriminate E].
Qed.

Lemma verdict_conv {A} (conv : node -> res A) (den : node -> A -> Prop) n :
  (forall n a, conv n = Ok a <-> den n a) -> (forall n, conv n <> Panic) -> verdict (conv n) (exists a, den n a) False.
Proof.
  intros H P. split; [|split; [intros E; exact (P n E)|tauto]].
  split; intros [a E]; exists a; apply H; exact E.
Qed.

Lemma verdict_ok {A} (a : A) : verdict (Ok a) True False.
Proof. split; [split; [trivial|eauto]|split; [discriminate|tauto]]. Qed.
Lemma verdict_err {A} : verdict (@Err A) False False.
Proof. split; [split; [intros [a E]; discriminate E|tauto]|split; [discriminate|tauto]]. Qed.
Lemma verdict_panic {A} : verdict (@Panic A) False True.
Proof. split; [split; [intros [a E]; discriminate E|tauto]|split; [trivial|reflexivity]]. Qed.

Lemma verdict_apart {A} (r : res A) G D : verdict r G D -> G -> D -> False.
Proof. intros [HG HD] g d. apply HG in g as [a E]. apply HD in d. congruence. Qed.

Lemma verdict_rejected {A} (r : res A) G D : verdict r G D -> (r = Err <-> ~ G /\ ~ D).
Proof.
  unfold verdict. intros [HG HD]. rewrite <- HG, <- HD. destruct r as [a| |]; split; try discriminate; try tauto.
  - intros [H _]. destruct H. eauto.
  - intros _. split; [intros [a E]; discriminate E|discriminate].
Qed.

Lemma first_cons {A} (G D : A -> Prop) a l : first G D (a :: l) <-> D a \/ (G a /\ first G D l).
Proof.
  split.
  - intros [pre [e [post [E [X Y]]]]]. destruct pre as [|p pre].
    + injection E as -> _. left. exact Y.
    + injection E as <- E. right. split; [apply X; left; reflexivity|]. exists pre, e, post. split; [exact E|]. split; [|exact Y].
      intros q Hq. apply X. right. exact Hq.
  - intros [d|[g [pre [e [post [-> [X Y]]]]]]].
    + exists [], a, l. split; [reflexivity|]. split; [intros p []|exact d].
    + exists (a :: pre), e, post. split; [reflexivity|]. split; [intros p [<-|Hp]; auto|exact Y].
Qed.

Lemma first_nil {A} (G D : A -> Prop) : ~ first G D [].
Proof. intros [pre [e [post [E _]]]]. destruct pre; discriminate E. Qed.

Lemma verdict_fold {A S} (f : S -> A -> res S) (I : S -> Prop) G D l :
  (forall s a, In a l -> I s -> verdict (f s a) (G a) (D a)) ->
  (forall s a s', I s -> f s a = Ok s' -> I s') ->
  forall s, I s -> verdict (fold_res f s l) (forall a, In a l -> G a) (first G D l).
Proof.
  intros H HI. induction l as [|a l IH]; intros s Is.
  - split; [split; [intros _ x []|intros _; exists s; reflexivity]|].
    split; [discriminate|]. intros X. destruct (first_nil _ _ X).
  - destruct (H s a (or_introl eq_refl) Is) as [VG VD]. cbn [fold_res].
    assert (IH' : forall s, I s -> verdict (fold_res f s l) (forall a, In a l -> G a) (first G D l)) by (apply IH; intros; apply H; [right|]; assumption).
    clear IH. unfold verdict. rewrite first_cons. destruct (f s a) as [s1| |] eqn:E; cbn [bind].
    + destruct (IH' s1 (HI _ _ _ Is E)) as [IG ID]. assert (g : G a) by (apply VG; eauto).
      assert (nd : ~ D a) by (intros d; apply VD in d; discriminate d). split.
      * rewrite IG. split; intros X; [intros x [<-|Hx]; auto|auto using in_cons].
      * rewrite ID. tauto.
    + assert (ng : ~ G a) by (intros g; apply VG in g as [x g]; discriminate g).
      assert (nd : ~ D a) by (intros d; apply VD in d; discriminate d). split; [|split; [discriminate|tauto]].
      split; [intros [x X]; discriminate X|]. intros X. destruct ng. apply X. left. reflexivity.
    + assert (ng : ~ G a) by (intros g; apply VG in g as [x g]; discriminate g).
      assert (d : D a) by (apply VD; reflexivity). split; [|tauto].
      split; [intros [x X]; discriminate X|]. intros X. destruct ng. apply X. left. reflexivity.
Qed.

(** ** Leaves *)

Lemma str_verdict n : verdict (to_str n) (a_string n) False.
Proof. apply verdict_conv; [apply denotes_string_iff|apply to_str_not_panic]. Qed.
Lemma bool_verdict n : verdict (to_bool n) (a_bool n) False.
Proof. apply verdict_conv; [apply denotes_bool_iff|apply to_bool_not_panic]. Qed.
Lemma int_verdict n : verdict (to_int n) (an_int n) False.
Proof. apply verdict_conv; [apply denotes_int_iff|apply to_int_not_panic]. Qed.

Lemma seq_verdict {S} (f : S -> node -> res S) (I : S -> Prop) G n s :
  (forall s v, I s -> verdict (f s v) (G v) False) -> (forall s a s', I s -> f s a = Ok s' -> I s') -> I s ->
  verdict (seq_fold f s n) (sequence G n) False.
Proof.
  intros H HI Is. unfold seq_fold. destruct n as [t v|t l|t l].
  - eapply verdict_iff; [| |apply verdict_err]; split; try tauto. intros [t' [l' [E _]]]. discriminate E.
  - eapply verdict_iff; [| |apply (verdict_fold f I G (fun _ => False) l); try assumption; intros; apply H; assumption].
    + split; [intros X; exists t, l; auto|]. intros [t' [l' [E X]]]. injection E as <- <-. exact X.
    + split; [|tauto]. intros [pre [e [post [_ [_ []]]]]].
  - eapply verdict_iff; [| |apply verdict_err]; split; try tauto. intros [t' [l' [E _]]]. discriminate E.
Qed.

Lemma map_verdict {S} (f : S -> node * node -> res S) (I : S -> Prop) (G D : node * node -> Prop) n s :
  (forall t l s e, n = Map t l -> In e l -> I s -> verdict (f s e) (G e) (D e)) -> (forall s a s', I s -> f s a = Ok s' -> I s') -> I s ->
  verdict (map_fold f s n) (entries G n) (exists t l, n = Map t l /\ first G D l).
Proof.
  intros H HI Is. unfold map_fold. destruct n as [t v|t l|t l].
  - eapply verdict_iff; [| |apply verdict_err]; split; try tauto; intros [t' [l' [E _]]]; discriminate E.
  - eapply verdict_iff; [| |apply verdict_err]; split; try tauto; intros [t' [l' [E _]]]; discriminate E.
  - eapply verdict_iff; [| |apply (verdict_fold f I G D l); try assumption; intros; eapply H; try eassumption; reflexivity].
    + split; [intros X; exists t, l; auto|]. intros [t' [l' [E X]]]. injection E as <- <-. exact X.
    + split; [intros X; exists t, l; auto|]. intros [t' [l' [E X]]]. injection E as <- <-. exact X.
Qed.

Lemma amap_verdict {V} (dec : node -> res V) (G D : node -> Prop) n m :
  (forall t l e, n = Map t l -> In e l -> verdict (dec (snd e)) (G (snd e)) (D (snd e))) ->
  verdict (read_amap dec m n) (mapping G n) (mapping_first G D n).
Proof.
  intros H. unfold read_amap. eapply verdict_iff; [| |apply (map_verdict _ (fun _ => True) (fun e => a_string (fst e) /\ G (snd e)) (fun e => a_string (fst e) /\ D (snd e)))];
    try reflexivity; try trivial.
  intros t l s e E Hi _. unfold read_amap_pair. pose proof (H t l e E Hi) as [HG HD]. pose proof (str_verdict (fst e)) as [SG _].
  unfold verdict. rewrite <- SG, <- HG, <- HD. clear. destruct (to_str (fst e)) as [x| |] eqn:E; cbn [bind].
  - destruct (dec (snd e)) as [y| |]; cbn [bind]; (split; [split|split]);
      try (intros [a X]; discriminate X); try (intros [_ [a X]]; discriminate X); try discriminate; try (intros [_ X]; discriminate X); eauto.
  - split; split; try (intros [a X]; discriminate X); try (intros [[a X] _]; discriminate X); discriminate.
  - destruct (to_str_not_panic _ E).
Qed.

Lemma no_first {A} (G : A -> Prop) l : ~ first G (fun _ => False) l.
Proof. intros [pre [e [post [_ [_ []]]]]]. Qed.

Lemma mapping_no_first G n : ~ mapping_first G (fun _ => False) n.
Proof. intros [t [l [_ [pre [e [post [_ [_ [_ []]]]]]]]]]. Qed.

Lemma annotation_verdict n : verdict (read_annotation n) (mapping anything n) False.
Proof.
  eapply verdict_iff; [| |apply (amap_verdict as_gnode anything (fun _ => False))]; [reflexivity| |intros; apply verdict_ok].
  split; [|tauto]. apply mapping_no_first.
Qed.

Lemma strings_verdict n o : verdict (run_assign (as_string_list n o)) (sequence a_string n) False.
Proof.
  destruct (as_string_list_all n o) as [[l [[t [ns [-> H]]] E]]|[H E]]; rewrite E; cbn [run_assign].
  - eapply verdict_iff; [| |apply verdict_ok]; [|tauto]. split; [|tauto]. intros _. exists t, ns. split; [reflexivity|]. clear E.
    induction H as [|n s ns l H0 H IH]; intros v []; [subst; exists s; exact H0|]. apply IH. assumption.
  - eapply verdict_iff; [| |apply verdict_err]; [|tauto]. split; [tauto|]. intros [t [ns [-> X]]].
    assert (Y : exists l, Forall2 denotes_string ns l).
    { clear H E. induction ns as [|n ns IH]; [exists []; constructor|]. destruct IH as [l Hl]; [intros; apply X; right; assumption|].
      destruct (X n (or_introl eq_refl)) as [s Hs]. exists (s :: l). constructor; assumption. }
    destruct Y as [l Hl]. apply (H l). exists t, ns. auto.
Qed.

Section Verdicts.
  Context {F : FloatIO}.

  Lemma float_verdict n : verdict (to_float n) (a_float n) False.
  Proof. apply verdict_conv; [apply denotes_float_iff|apply to_float_not_panic]. Qed.

  Lemma key_verdict n : verdict (to_scalar n) (a_key n) False.
  Proof.
    split; [|split; [intros E; exact (to_scalar_not_panic _ E)|tauto]].
    destruct n as [t v|t l|t l]; [|split; [intros [a E]; discriminate E|intros [v [E|[E|[[E _]|[[E _]|[E _]]]]]]; discriminate E]..].
    destruct t; cbn [to_scalar];
      try (split; [intros [a E]; discriminate E|intros [w [E|[E|[[E _]|[[E _]|[E _]]]]]]; discriminate E]).
    - split; [intros _; exists v; auto|eauto].
    - pose proof (int_verdict (Scal TInt v)) as [H _]. cbn [to_int] in H. split.
      + intros [k E]. apply bind_ok in E as [z [E _]]. exists v. right; right; left. split; [reflexivity|]. apply H. eauto.
      + intros [w [E|[E|[[E X]|[[E _]|[E _]]]]]]; try discriminate E. apply H in X as [z X]. rewrite X. cbn. eauto.
    - pose proof (bool_verdict (Scal TBool v)) as [H _]. cbn [to_bool] in H. split.
      + intros [k E]. apply bind_ok in E as [z [E _]]. exists v. do 3 right; left. split; [reflexivity|]. apply H. eauto.
      + intros [w [E|[E|[[E _]|[[E X]|[E _]]]]]]; try discriminate E. apply H in X as [z X]. rewrite X. cbn. eauto.
    - pose proof (float_verdict (Scal TFloat v)) as [H _]. cbn [to_float] in H. split.
      + intros [k E]. apply bind_ok in E as [z [E _]]. exists v. do 4 right. split; [reflexivity|]. apply H. eauto.
      + intros [w [E|[E|[[E _]|[[E _]|[E X]]]]]]; try discriminate E. apply H in X as [z X]. rewrite X. cbn. eauto.
    - split; [intros _; exists v; auto|eauto].
  Qed.

  Lemma ex_val_verdict k n : verdict (ex_val k n) (example_value k n) False.
  Proof.
    destruct k; cbn [ex_val example_value]; try (apply verdict_ok); try (apply verdict_err);
      try (apply verdict_bind; first [apply str_verdict|apply bool_verdict|apply int_verdict|apply float_verdict]).
    assert (N : forall n, is_seq n = false -> verdict (@Err gval) (sequence anything n) False).
    { intros m E. eapply verdict_iff; [| |apply verdict_err]; [|tauto]. split; [tauto|]. intros [t [l [-> _]]]. discriminate E. }
    destruct n as [t v|t l|t l]; [apply N; reflexivity| |apply N; reflexivity].
    eapply verdict_iff; [| |apply verdict_ok]; [|tauto]. split; [|trivial]. intros _. exists t, l. split; [reflexivity|]. intros v _. exact I.
  Qed.

  Lemma is_string_iff n : is_string n = true <-> a_string n.
  Proof.
    rewrite is_string_tag. unfold a_string, denotes_string. split; [intros E; exists (value n); auto|intros [s [E _]]; exact E].
  Qed.

  Lemma is_string_denotes n s : is_string n = true -> value n = s -> denotes_string n s.
  Proof. intros H E. apply is_string_tag in H. split; assumption. Qed.

  Lemma denotes_value n s : denotes_string n s -> value n = s.
  Proof. intros [_ E]. exact E. Qed.

  (** A condition of a chain of cases, decided. *)
  Lemma verdict_case {A} (b : bool) (r1 r2 : res A) G D :
    (b = true -> verdict r1 G D) -> (b = false -> verdict r2 G D) -> verdict (if b then r1 else r2) G D.
  Proof. destruct b; auto. Qed.

  Lemma ex_entry_verdict k e p : verdict (ex_assign k e p) (example_entry k p) (denotes_string (fst p) "").
  Proof.
    destruct p as [key val]. unfold ex_assign. cbn [fst snd]. destruct (is_string key) eqn:Es; cbn [negb].
    2:{ eapply verdict_iff; [| |apply verdict_bind, key_verdict].
        - split; [intros X; apply exe_other; [rewrite <- is_string_iff; congruence|exact X]|].
          assert (N : ~ a_string key) by (rewrite <- is_string_iff; congruence).
          assert (N' : forall s, ~ denotes_string key s) by (intros s X; apply N; exists s; exact X).
          intros X. inversion X; subst; try assumption; exfalso;
            match goal with
            | H : is_annotation_key _ = true |- _ => unfold is_annotation_key in H; rewrite Es in H; discriminate H
            | H : _ \/ _ |- _ => destruct H as [H|H]; exact (N' _ H)
            | H : denotes_string _ _ |- _ => exact (N' _ H)
            end.
        - split; [tauto|]. intros X. apply not_true_iff_false in Es. apply Es, is_string_iff. exists "". exact X. }
    destruct (value key) as [|c r] eqn:Ev.
    { assert (X : denotes_string key "") by (apply is_string_denotes; assumption).
      eapply verdict_iff; [| |apply verdict_panic]; [|tauto]. split; [tauto|]. intros Y. inversion Y; subst;
        match goal with
        | H : ~ a_string key |- _ => apply H; exists ""; exact X
        | H : is_annotation_key _ = true |- _ => unfold is_annotation_key in H; rewrite Es, Ev in H; discriminate H
        | H : _ \/ _ |- _ => destruct H as [H|H]; apply denotes_value in H; congruence
        | H : denotes_string _ _ |- _ => apply denotes_value in H; congruence
        end. }
    assert (S : denotes_string key (String c r)) by (apply is_string_denotes; assumption).
    assert (Nd : ~ denotes_string key "") by (intros X; apply denotes_value in X; congruence).
    assert (Na : is_annotation_key key = Ascii.eqb c "(") by (unfold is_annotation_key; rewrite Es, Ev; reflexivity).
    assert (Nk : a_key key).
    { destruct S as [St _]. destruct key as [t v|t l|t l]; cbn [value] in Ev; try discriminate Ev. cbn in St. subst t. exists v. auto. }
    apply (verdict_iff _ (example_entry k (key, val)) False); [reflexivity|tauto|].
    destruct (Ascii.eqb c "(") eqn:Ec.
    { apply Ascii.eqb_eq in Ec. subst c. eapply verdict_iff; [| |apply verdict_bind, annotation_verdict]; [|tauto].
      split; [intros X; apply exe_annotation; assumption|]. intros X. inversion X; subst; try assumption; exfalso;
        match goal with
        | H : ~ a_string key |- _ => apply H; eexists; exact S
        | H : _ \/ _ |- _ => destruct H as [H|H]; apply denotes_value in H; congruence
        | H : is_annotation_key _ = false |- _ => congruence
        | H : denotes_string _ _ |- _ => apply denotes_value in H; congruence
        end. }
    assert (Inv : forall P : Prop, example_entry k (key, val) ->
       ((String c r = "displayName" \/ String c r = "description") -> a_string val -> P) -> (String c r = "strict" -> a_bool val -> P) ->
       (String c r = "value" -> example_value k val -> P) ->
       (~ In (String c r) ["displayName"; "description"; "strict"; "value"] -> P) -> P).
    { intros P X H1 H2 H3 H4. inversion X; subst.
      - match goal with H : ~ a_string key |- _ => destruct H; eexists; exact S end.
      - congruence.
      - apply H1; [|assumption]. match goal with H : _ \/ _ |- _ => destruct H as [H|H]; apply denotes_value in H; rewrite Ev in H; auto end.
      - apply H2; [|assumption]. match goal with H : denotes_string key _ |- _ => apply denotes_value in H; rewrite Ev in H; exact H end.
      - apply H3; [|assumption]. match goal with H : denotes_string key _ |- _ => apply denotes_value in H; rewrite Ev in H; exact H end.
      - apply H4. match goal with H : denotes_string key ?s, N : ~ In ?s _ |- _ => apply denotes_value in H; rewrite Ev in H; subst s; exact N end. }
    clear Ec Nd Ev. remember (String c r) as s eqn:Es'. assert (Sn : s <> "") by (subst s; discriminate). clear Es' c r.
    unfold as_string_ptr, as_bool. rewrite !run_assign_with.
    repeat (let C := fresh "C" in apply verdict_case; intros C; [apply String.eqb_eq in C; subst s|apply String.eqb_neq in C]).
    - do 2 apply verdict_bind. eapply verdict_iff; [| |apply str_verdict]; [|tauto]. split; [intros X; apply exe_text; auto|].
      intros X. apply (Inv _ X); try discriminate; try tauto. intros N. destruct N. left. reflexivity.
    - do 2 apply verdict_bind. eapply verdict_iff; [| |apply str_verdict]; [|tauto]. split; [intros X; apply exe_text; auto|].
      intros X. apply (Inv _ X); try discriminate; try tauto. intros N. destruct N. right; left. reflexivity.
    - do 2 apply verdict_bind. eapply verdict_iff; [| |apply bool_verdict]; [|tauto]. split; [intros X; apply exe_strict; auto|].
      intros X. apply (Inv _ X); try discriminate; try tauto. intros N. destruct N. right; right; left. reflexivity.
    - apply verdict_bind. eapply verdict_iff; [| |apply ex_val_verdict]; [|tauto]. split; [intros X; apply exe_value; auto|].
      intros X. apply (Inv _ X); try discriminate; try tauto. intros N. destruct N. do 3 right; left. reflexivity.
    - apply verdict_bind. eapply verdict_iff; [| |apply key_verdict]; [|tauto]. split; [|tauto]. intros _. eapply exe_extra; try eassumption.
      intros [X|[X|[X|[X|[]]]]]; congruence.
  Qed.

  Lemma ex_verdict k n : verdict (read_ex k n) (example k n) (example_dies k n).
  Proof.
    unfold read_ex, ex_unmarshal. destruct n as [t v|t l|t l].
    - apply verdict_bind. eapply verdict_iff; [| |apply ex_val_verdict]; [reflexivity|]. split; [tauto|]. intros [t' [l' [E _]]]. discriminate E.
    - apply verdict_bind. eapply verdict_iff; [| |apply ex_val_verdict]; [reflexivity|]. split; [tauto|]. intros [t' [l' [E _]]]. discriminate E.
    - eapply verdict_iff; [| |apply (verdict_fold (ex_assign k) (fun _ => True) (example_entry k) (fun e => denotes_string (fst e) "") l)];
        try trivial; [reflexivity| |intros; apply ex_entry_verdict].
      split; [intros X; exists t, l; auto|]. intros [t' [l' [E X]]]. injection E as <- <-. exact X.
  Qed.

  Lemma xml_entry_verdict x e : verdict (xml_assign x e) (xml_entry e) False.
  Proof.
    destruct e as [key val]. unfold xml_assign, as_bool_ptr, as_string_ptr. cbn [fst snd]. rewrite !run_assign_with.
    assert (Inv : forall P : Prop, xml_entry (key, val) ->
       ((value key = "attribute" \/ value key = "wrapped") -> a_bool val -> P) ->
       ((value key = "name" \/ value key = "namespace" \/ value key = "prefix") -> a_string val -> P) ->
       (~ In (value key) ["attribute"; "wrapped"; "name"; "namespace"; "prefix"] -> a_key key -> P) -> P).
    { intros P X H1 H2 H3. inversion X; subst; auto. }
    assert (Flag : value key = "attribute" \/ value key = "wrapped" -> a_bool val -> xml_entry (key, val)) by (apply xml_flag).
    assert (Text : value key = "name" \/ value key = "namespace" \/ value key = "prefix" -> a_string val -> xml_entry (key, val)) by (apply xml_text).
    assert (Other : ~ In (value key) ["attribute"; "wrapped"; "name"; "namespace"; "prefix"] -> a_key key -> xml_entry (key, val)) by (apply xml_other).
    remember (value key) as s eqn:Es. clear Es.
    repeat (let C := fresh "C" in apply verdict_case; intros C; [apply String.eqb_eq in C; subst s|apply String.eqb_neq in C]).
    - do 2 apply verdict_bind. eapply verdict_iff; [| |apply bool_verdict]; [|tauto]. split; [auto|].
      intros X. apply (Inv _ X); [auto|intros [E|[E|E]]; discriminate E|]. intros N. destruct N. left. reflexivity.
    - do 2 apply verdict_bind. eapply verdict_iff; [| |apply bool_verdict]; [|tauto]. split; [auto|].
      intros X. apply (Inv _ X); [auto|intros [E|[E|E]]; discriminate E|]. intros N. destruct N. right; left. reflexivity.
    - do 2 apply verdict_bind. eapply verdict_iff; [| |apply str_verdict]; [|tauto]. split; [auto|].
      intros X. apply (Inv _ X); [intros [E|E]; discriminate E|auto|]. intros N. destruct N. do 2 right; left. reflexivity.
    - do 2 apply verdict_bind. eapply verdict_iff; [| |apply str_verdict]; [|tauto]. split; [auto|].
      intros X. apply (Inv _ X); [intros [E|E]; discriminate E|auto|]. intros N. destruct N. do 3 right; left. reflexivity.
    - do 2 apply verdict_bind. eapply verdict_iff; [| |apply str_verdict]; [|tauto]. split; [auto|].
      intros X. apply (Inv _ X); [intros [E|E]; discriminate E|auto|]. intros N. destruct N. do 4 right; left. reflexivity.
    - apply verdict_bind. eapply verdict_iff; [| |apply key_verdict]; [|tauto]. split.
      + apply Other. intros [E|[E|[E|[E|[E|[]]]]]]; congruence.
      + intros X. apply (Inv _ X); [intros [E|E]; congruence|intros [E|[E|E]]; congruence|auto].
  Qed.

  Lemma xml_verdict n x : verdict (xml_unmarshal n x) (entries xml_entry n) False.
  Proof.
    eapply verdict_iff; [| |apply (map_verdict xml_assign (fun _ => True) xml_entry (fun _ => False))]; try trivial; [reflexivity| |intros; apply xml_entry_verdict].
    split; [|tauto]. intros [t [l [_ X]]]. exact (no_first _ _ X).
  Qed.

  Lemma enum_elem_verdict k n : verdict (enum_elem k n) (enum_element k n) False.
  Proof. apply verdict_conv; [apply enum_elem_iff|]. intros m. destruct k; cbn; try discriminate; intros H;
    (apply bind_panic in H as [H|[x [_ H]]]; [|discriminate H]);
    first [exact (to_str_not_panic _ H)|exact (to_bool_not_panic _ H)|exact (to_int_not_panic _ H)|exact (to_float_not_panic _ H)]. Qed.

  Lemma enum_verdict k o n : verdict (read_enum k o n) (sequence (enum_element k) n) False.
  Proof. apply (seq_verdict _ (fun _ => True)); auto. intros s v _. apply verdict_bind, enum_elem_verdict. Qed.

  (** ** Type definitions *)

  (** The outcome of one field of a type of the kind. *)
  Lemma plain_verdict rd d f key val old : shaped d -> In f (facets_of (d_kind d)) -> getf f d = Some old ->
    f <> FItems -> f <> FProps -> f <> FFacets ->
    verdict (step rd (d_kind d) f key val old) (plain_facet (d_kind d) f val)
      ((f = FExample /\ d_kind d <> TyAny /\ example_dies (d_kind d) val) \/ (f = FExamples /\ mapping_first (example (d_kind d)) (example_dies (d_kind d)) val)).
  Proof.
    intros Hs Hi Hg N1 N2 N3.
    assert (Z : forall A (r : res A) G, f <> FExample -> f <> FExamples -> verdict r G False -> verdict r G
      ((f = FExample /\ d_kind d <> TyAny /\ example_dies (d_kind d) val) \/ (f = FExamples /\ mapping_first (example (d_kind d)) (example_dies (d_kind d)) val))).
    { intros A r G X Y V. eapply verdict_iff; [| |exact V]; tauto. }
    destruct (field_dec f FExample) as [->|Ne].
    { cbn [step plain_facet]. assert (K : full (d_kind d)) by (destruct (d_kind d); try destruct Hi; split; discriminate).
      destruct (d_kind d) eqn:Ek; cbn [has_example];
        try (eapply verdict_iff; [| |apply verdict_bind, ex_verdict]; [split; [split; [discriminate|assumption]|tauto]|split; [intros X; left; split; [reflexivity|split; [discriminate|exact X]]|intros [[_ [_ X]]|[X _]]; [exact X|discriminate X]]]);
        try (destruct K; congruence).
      eapply verdict_iff; [| |apply verdict_err]; [tauto|]. split; [tauto|]. intros [[_ [X _]]|[X _]]; [congruence|discriminate X]. }
    destruct (field_dec f FExamples) as [->|Ne'].
    { pose proof (get_spec_sort d FExamples old Hs Hg) as So. cbn in So. destruct old; try discriminate So. cbn [step plain_facet].
      apply verdict_bind. eapply verdict_iff; [| |apply (amap_verdict (read_ex (d_kind d)) (example (d_kind d)) (example_dies (d_kind d)))];
        [reflexivity| |intros; apply ex_verdict]. split; [intros X; right; auto|]. intros [[X _]|[_ X]]; [discriminate X|exact X]. }
    apply Z; [exact Ne|exact Ne'|]. clear Z.
    pose proof (get_spec_sort d f old Hs Hg) as So. remember (d_kind d) as k eqn:Ek. clear Ek Hs Hg.
    destruct f; try congruence; try (destruct k; cbn in Hi; exfalso; decompose [or] Hi; congruence);
      try (destruct k; discriminate So);
      cbn [default_value] in So;
      try (destruct old; discriminate So || (cbn [step plain_facet]; apply verdict_bind;
           first [apply str_verdict|apply bool_verdict|apply int_verdict|apply float_verdict|apply xml_verdict|apply enum_verdict|apply strings_verdict]));
      try (cbn [step plain_facet]; apply verdict_ok);
      destruct k; try (exfalso; cbn in Hi; decompose [or] Hi; congruence); cbn in So; destruct old; try discriminate So;
        cbn [step plain_facet]; apply verdict_bind; first [apply int_verdict|apply float_verdict].
  Qed.

  Lemma hat_def_kind n d : hat n = Ok d -> def_kind n (d_kind d).
  Proof.
    intros H. destruct (is_string n) eqn:Es.
    { rewrite hat_eq in H. unfold hat_body in H. rewrite Es in H. injection H as <-. rewrite type_to_kind_eq, d_kind_set, d_kind_new.
      apply (kind_string n (value n)); [apply is_string_denotes; [exact Es|reflexivity]|apply kind_of_named]. }
    destruct n as [t v|t l|t l].
    - rewrite hat_eq in H. unfold hat_body in H. rewrite Es in H. destruct t; try discriminate H. injection H as <-. apply kind_include.
    - rewrite hat_eq in H. unfold hat_body in H. rewrite Es in H. discriminate H.
    - assert (Ht : t <> TStr) by (intros ->; discriminate Es). apply kind_map; [exact Ht|]. eapply expanded_kind; eassumption.
  Qed.

  Lemma def_kind_fun n k1 k2 : def_kind n k1 -> def_kind n k2 -> k1 = k2.
  Proof.
    intros H1 H2. destruct H1 as [n s k [Dt Dv] N|v|t l k Ht C]; inversion H2 as [n' s' k' [Dt' Dv'] N'|v'|t' l' k' Ht' C']; subst; try reflexivity;
      try discriminate; try (cbn in *; congruence).
    - eapply named_fun; eassumption.
    - eapply classified_fun; eassumption.
  Qed.

  Lemma hat_base n d : hat n = Ok d -> (forall b, d <> TBase b) <-> full (d_kind d).
  Proof.
    intros H. pose proof (hat_shaped n d H) as S. unfold shaped, d_kind, full in *. destruct d as [b|b x fs c s]; cbn [d_base] in *.
    - destruct (b_kind b); cbn in S; try discriminate S; (split; [intros X; destruct (X b); reflexivity|intros [X Y]; congruence]).
    - destruct (b_kind b); cbn in S; try discriminate S; (split; [intros _; split; discriminate|intros _ b' E; discriminate E]).
  Qed.

  (** What a property must be, and what is fatal in a property. *)
  Lemma property_verdict n : verdict (hat n) (loads n) (dies n) ->
    verdict (do d <- hat n; as_property d) (a_property n) (dies n \/ (loads n /\ exists k, def_kind n k /\ ~ full k)).
  Proof.
    intros [HG HD]. unfold a_property, verdict. rewrite <- HG, <- HD. destruct (hat n) as [d| |] eqn:E; cbn [bind].
    - pose proof (hat_def_kind n d E) as K. pose proof (hat_base n d E) as B. destruct d as [b|b x fs c s]; cbn [as_property].
      + assert (N : ~ full (d_kind (TBase b))) by (intros X; apply (proj2 B X b); reflexivity). split.
        * split; [intros [a X]; discriminate X|]. intros [_ [k [Hk Hf]]]. destruct N. rewrite (def_kind_fun _ _ _ K Hk). exact Hf.
        * split; [|reflexivity]. intros _. right. split; [eauto|]. exists (d_kind (TBase b)). auto.
      + assert (N : full (d_kind (TExt b x fs c s))) by (apply (proj1 B); intros b0 X; discriminate X). split.
        * split; [|eauto]. intros _. split; [eauto|]. eexists. split; eassumption.
        * split; [discriminate|]. intros [X|[_ [k [Hk Hf]]]]; [discriminate X|]. destruct Hf. rewrite <- (def_kind_fun _ _ _ K Hk). exact N.
    - split; split; try (intros [a X]; discriminate X); try (intros [[a X] _]; discriminate X); try discriminate.
      intros [X|[[a X] _]]; discriminate X.
    - split; split; try (intros [a X]; discriminate X); try (intros [[a X] _]; discriminate X); auto.
  Qed.

  Lemma facet_key_inj f g s : facet_key f = Some s -> facet_key g = Some s -> f = g.
  Proof. destruct f; intros E; try discriminate E; injection E as <-; destruct g; intros E'; try discriminate E'; reflexivity. Qed.

  Lemma annotation_text key : is_annotation_key key = true -> exists r, value key = String "(" r.
  Proof.
    unfold is_annotation_key. destruct (is_string key); [|discriminate]. destruct (value key) as [|c r]; [discriminate|]. cbn.
    intros E. apply Ascii.eqb_eq in E. subst c. eauto.
  Qed.

  Lemma facet_text f s : facet_key f = Some s -> s <> "" /\ s <> "type" /\ s <> "schema" /\ forall r, s <> String "(" r.
  Proof. destruct f; intros E; try discriminate E; injection E as <-; repeat split; discriminate. Qed.

  Lemma extra_not_known k key : extra_key k key = true -> ~ In (value key) (known_keys k).
  Proof.
    unfold extra_key. intros H K. apply andb_true_iff in H as [H _]. apply negb_true_iff in H.
    assert (existsb (String.eqb (value key)) (known_keys k) = true); [|congruence]. apply existsb_exists. exists (value key). split; [exact K|apply String.eqb_refl].
  Qed.

  (** An entry by its key. *)
  Lemma entry_by_type k key val : value key = "type" \/ value key = "schema" -> (entry_loads k (key, val) <-> a_string val) /\ ~ entry_dies k (key, val).
  Proof.
    intros Hk. assert (Kn : In (value key) (known_keys k)) by (destruct Hk as [->| ->]; [left|right; left]; reflexivity).
    assert (Nf : forall f, facet_key f <> Some (value key)) by (intros f E; apply facet_text in E as [_ [E1 [E2 _]]]; destruct Hk; congruence).
    split; [split; [|intros X; apply entry_type; assumption]|].
    - intros X. inversion X; subst; try assumption; exfalso;
        try (match goal with H : facet_key _ = Some (value key) |- _ => exact (Nf _ H) end);
        try (match goal with H : value key = _ |- _ => destruct Hk; congruence end).
      + match goal with H : is_annotation_key _ = true |- _ => apply annotation_text in H as [r E] end. destruct Hk; congruence.
      + eapply extra_not_known; eassumption.
    - intros X. inversion X; subst; try (match goal with H : value key = _ |- _ => destruct Hk; congruence end).
      match goal with H : denotes_string key _ |- _ => apply denotes_value in H; destruct Hk; congruence end.
  Qed.

  Lemma entry_by_facet k key val f : In f (facets_of k) -> facet_key f = Some (value key) ->
    (entry_loads k (key, val) <-> plain_facet k f val \/ (f = FItems /\ loads val) \/
       (f = FProps /\ mapping a_property val) \/ (f = FFacets /\ mapping (mapping loads) val)) /\
    (entry_dies k (key, val) <->
       (f = FExample /\ k <> TyAny /\ example_dies k val) \/ (f = FExamples /\ mapping_first (example k) (example_dies k) val) \/ (f = FItems /\ dies val) \/
       (f = FProps /\ mapping_first a_property (fun n => dies n \/ (loads n /\ exists k', def_kind n k' /\ ~ full k')) val) \/
       (f = FFacets /\ mapping_first (mapping loads) (mapping_first loads dies) val)).
  Proof.
    intros Hi Hf. destruct (facet_text f _ Hf) as [T1 [T2 [T3 T4]]].
    assert (Kn : In (value key) (known_keys k)) by (apply known_key_in; eauto).
    assert (Fk : full k) by (unfold full; split; intros ->; destruct Hi).
    assert (Same : forall g s, facet_key g = Some s -> value key = s -> f = g) by (intros g s E1 E2; subst s; eapply facet_key_inj; eassumption).
    split.
    - split.
      + intros X. inversion X; subst.
        * match goal with H : value key = _ \/ _ |- _ => destruct H; congruence end.
        * match goal with H : facet_key ?g = Some (value key), P : plain_facet _ ?g _ |- _ => rewrite (facet_key_inj _ _ _ Hf H); auto end.
        * right; left. split; [eapply Same; [reflexivity|assumption]|assumption].
        * right; right; left. split; [eapply Same; [reflexivity|assumption]|]. eexists. eexists. split; [reflexivity|]. assumption.
        * right; right; right. split; [eapply Same; [reflexivity|assumption]|]. eexists. eexists. split; [reflexivity|].
          intros e He. match goal with H : forall e, In e _ -> _ |- _ => apply H; exact He end.
        * exfalso. match goal with H : is_annotation_key _ = true |- _ => apply annotation_text in H as [r E] end. exact (T4 _ E).
        * exfalso. eapply extra_not_known; eassumption.
      + intros [X|[[-> X]|[[-> X]|[-> X]]]].
        * eapply entry_plain; eassumption.
        * apply entry_items; [exact Hi|injection Hf; auto|exact X].
        * destruct X as [t [l [-> X]]]. apply entry_properties; [exact Hi|injection Hf; auto|exact X].
        * destruct X as [t [l [-> X]]]. apply entry_facets; [exact Hi|injection Hf; auto|exact X].
    - split.
      + intros X. inversion X; subst.
        * exfalso. match goal with H : denotes_string key _ |- _ => apply denotes_value in H; congruence end.
        * left. split; [eapply Same; [reflexivity|assumption]|auto].
        * right; left. split; [eapply Same; [reflexivity|assumption]|auto].
        * do 2 right; left. split; [eapply Same; [reflexivity|assumption]|auto].
        * do 3 right; left. split; [eapply Same; [reflexivity|assumption]|]. eexists. eexists. split; [reflexivity|]. eexists. eexists. eexists. split; [reflexivity|]. auto.
        * do 4 right. split; [eapply Same; [reflexivity|assumption]|]. eexists. eexists. split; [reflexivity|]. eexists. eexists. eexists. split; [reflexivity|]. split; [assumption|].
          split; [assumption|]. eexists. eexists. split; [eassumption|]. eexists. eexists. eexists. split; [reflexivity|]. auto.
      + assert (V : forall g s, facet_key g = Some s -> f = g -> value key = s) by (intros g s E1 E2; subst g; congruence).
        intros [[E [X1 X2]]|[[E X]|[[E X]|[[E X]|[E X]]]]]; pose proof Hf as Ev; rewrite E in Ev; cbn in Ev; injection Ev as Ev; symmetry in Ev; subst f.
        * apply dies_example; assumption.
        * apply dies_examples; assumption.
        * apply dies_items; assumption.
        * destruct X as [t [l [-> [pre [e [post [-> [X1 [X2 X3]]]]]]]]]. eapply dies_property; try eassumption. reflexivity.
        * destruct X as [t [l [-> [pre [e [post [-> [X1 [X2 [t' [l' [X3 [pre' [e' [post' [-> [X4 [X5 X6]]]]]]]]]]]]]]]]]].
          refine (dies_facet k key t _ pre e post t' _ pre' e' post' Hi Ev eq_refl X1 X2 X3 eq_refl X4 X5 X6).
  Qed.

  Lemma entry_by_annotation k key val : full k -> ~ In (value key) (known_keys k) -> is_annotation_key key = true ->
    (entry_loads k (key, val) <-> mapping anything val) /\ ~ entry_dies k (key, val).
  Proof.
    intros Fk Nk Ha. destruct (annotation_text key Ha) as [r Er]. split; [split; [|intros X; apply entry_annotation; assumption]|].
    - intros X. inversion X; subst; try assumption; exfalso; try (match goal with H : value key = _ |- _ => congruence end).
      + match goal with H : value key = _ \/ _ |- _ => destruct H; congruence end.
      + apply Nk. apply known_key_in. eauto.
      + match goal with H : extra_key _ _ = true |- _ => unfold extra_key in H; apply andb_true_iff in H as [_ H]; destruct Fk; rewrite Ha in H; destruct k; cbn in H; congruence end.
    - intros X. inversion X; subst; try (match goal with H : value key = _ |- _ => congruence end).
      match goal with H : denotes_string key _ |- _ => apply denotes_value in H; congruence end.
  Qed.

  Lemma entry_by_extra k key val : ~ In (value key) (known_keys k) -> (full k -> is_annotation_key key = false) ->
    (entry_loads k (key, val) <-> (full k -> ~ denotes_string key "")) /\ (entry_dies k (key, val) <-> full k /\ denotes_string key "").
  Proof.
    intros Nk Ha.
    assert (Nf : forall f, In f (facets_of k) -> facet_key f <> Some (value key)) by (intros f E1 E2; apply Nk, known_key_in; eauto).
    assert (Ek : extra_key k key = true).
    { unfold extra_key. apply andb_true_iff. split.
      - apply negb_true_iff. destruct (existsb _ _) eqn:E; [|reflexivity]. apply existsb_exists in E as [x [E1 E2]]. apply String.eqb_eq in E2. destruct Nk. congruence.
      - destruct k; try reflexivity; rewrite Ha by (split; discriminate); reflexivity. }
    split; (split; [intros X|intros X; try (apply entry_extra; assumption)]).
    - inversion X; subst; try assumption; exfalso.
      + apply Nk. match goal with H : value key = _ \/ _ |- _ => destruct H as [->| ->]; [left|right; left]; reflexivity end.
      + match goal with H : In ?f _, H' : facet_key ?f = _ |- _ => exact (Nf _ H H') end.
      + apply (Nf FItems); [assumption|cbn; congruence].
      + apply (Nf FProps); [assumption|cbn; congruence].
      + apply (Nf FFacets); [assumption|cbn; congruence].
      + match goal with H : is_annotation_key _ = true |- _ => rewrite Ha in H by assumption; discriminate H end.
    - inversion X; subst; try (split; assumption); exfalso.
      + apply (Nf FExample); [|cbn; congruence]. match goal with H : full k |- _ => destruct H end. unfold facets_of. destruct k; try congruence; apply in_or_app; right; cbn; tauto.
      + apply (Nf FExamples); [|cbn; congruence]. match goal with H : full k |- _ => destruct H end. unfold facets_of. destruct k; try congruence; apply in_or_app; right; cbn; tauto.
      + apply (Nf FItems); [assumption|cbn; congruence].
      + apply (Nf FProps); [assumption|cbn; congruence].
      + apply (Nf FFacets); [assumption|cbn; congruence].
    - destruct X as [X1 X2]. apply dies_empty; assumption.
  Qed.

  Lemma target_type d key : shaped d -> value key = "type" \/ value key = "schema" -> target d key = Some FType.
  Proof.
    intros Hs Hk. unfold target. destruct d as [b|b x fs c s].
    - unfold base_target. destruct Hk as [->| ->]; reflexivity.
    - assert (spec_target s (value key) = None) as -> by (destruct Hk as [->| ->]; destruct s; reflexivity).
      destruct Hk as [E|E]; rewrite E; cbn; destruct (is_string key); reflexivity.
  Qed.

  Lemma shaped_full d : shaped d -> ((forall b, d <> TBase b) <-> full (d_kind d)).
  Proof.
    intros S. unfold shaped, d_kind, full in *. destruct d as [b|b x fs c s]; cbn [d_base] in *.
    - destruct (b_kind b); cbn in S; try discriminate S; (split; [intros X; destruct (X b); reflexivity|intros [X Y]; congruence]).
    - destruct (b_kind b); cbn in S; try discriminate S; (split; [intros _; split; discriminate|intros _ b' E; discriminate E]).
  Qed.

  (** One entry of a type definition of the kind. *)
  Lemma entry_verdict d key val : shaped d ->
    (forall m, node_size m <= node_size val -> verdict (hat m) (loads m) (dies m)) ->
    verdict (type_assign hat d (key, val)) (entry_loads (d_kind d) (key, val)) (entry_dies (d_kind d) (key, val)).
  Proof.
    intros Hs IH. rewrite type_assign_step. pose proof (shaped_full d Hs) as Fu.
    destruct (in_dec string_dec (value key) (known_keys (d_kind d))) as [Kn|Nk].
    - apply known_key_in in Kn as Kn'. assert (C : (value key = "type" \/ value key = "schema") \/ exists f, In f (facets_of (d_kind d)) /\ facet_key f = Some (value key)) by tauto.
      clear Kn'. destruct C as [Hk|[f [Hi Hf]]].
      + destruct (entry_by_type (d_kind d) key val Hk) as [L D]. rewrite (target_type d key Hs Hk). unfold step_in.
        destruct (getf FType d) as [old|] eqn:G; [|destruct d; discriminate G]. cbn [step]. do 2 apply verdict_bind.
        eapply verdict_iff; [| |apply str_verdict]; [symmetry; exact L|tauto].
      + destruct (entry_by_facet (d_kind d) key val f Hi Hf) as [L D]. rewrite (target_facet d key f Hs Hi Hf). unfold step_in.
        destruct (facet_has d f Hs Hi) as [old G]. rewrite G. apply verdict_bind.
        destruct (field_dec f FItems) as [->|N1].
        { cbn [step]. apply verdict_bind. eapply verdict_iff; [| |apply IH; reflexivity].
          - rewrite L. split; [auto|]. intros [[]|[[_ X]|[[X _]|[X _]]]]; [exact X|discriminate X|discriminate X].
          - rewrite D. split; [intros X; tauto|]. intros [[X _]|[[X _]|[[_ X]|[[X _]|[X _]]]]]; try discriminate X. exact X. }
        pose proof (get_spec_sort d f old Hs G) as So. destruct (field_dec f FProps) as [->|N2].
        { destruct old; try discriminate So. cbn [step]. apply verdict_bind. unfold read_properties.
          eapply verdict_iff; [| |apply (amap_verdict _ a_property (fun n => dies n \/ (loads n /\ exists k', def_kind n k' /\ ~ full k')))].
          - rewrite L. split; [auto|]. intros [[]|[[X _]|[[_ X]|[X _]]]]; [discriminate X|exact X|discriminate X].
          - rewrite D. split; [intros X; tauto|]. intros [[X _]|[[X _]|[[X _]|[[_ X]|[X _]]]]]; try discriminate X. exact X.
          - intros t l [a v] -> He. apply property_verdict, IH. apply Nat.lt_le_incl. eapply size_map_val. exact He. }
        destruct (field_dec f FFacets) as [->|N3].
        { destruct old; try discriminate So. cbn [step]. apply verdict_bind. unfold read_facets.
          eapply verdict_iff; [| |apply (amap_verdict _ (mapping loads) (mapping_first loads dies))].
          - rewrite L. split; [auto|]. intros [[]|[[X _]|[[X _]|[_ X]]]]; [discriminate X|discriminate X|exact X].
          - rewrite D. split; [intros X; tauto|]. intros [[X _]|[[X _]|[[X _]|[[X _]|[_ X]]]]]; try discriminate X. exact X.
          - intros t l [a v] -> He. apply amap_verdict. intros t' l' [a' v'] E' He'. cbn [snd] in E'. subst v. apply IH. cbn [snd].
            pose proof (size_map_val t l a _ He). pose proof (size_map_val t' l' a' _ He'). lia. }
        eapply verdict_iff; [| |apply plain_verdict; try eassumption].
        * rewrite L. split; [auto|]. intros [X|[[X _]|[[X _]|[X _]]]]; [exact X|congruence..].
        * rewrite D. split; [tauto|]. intros [X|[X|[[X _]|[[X _]|[X _]]]]]; [auto|auto|congruence..].
    - rewrite (target_unknown d key Hs Nk). destruct d as [b|b x fs c s].
      + assert (Nf : ~ full (d_kind (TBase b))) by (intros X; exact (proj2 Fu X b eq_refl)).
        destruct (entry_by_extra (d_kind (TBase b)) key val Nk) as [L D]; [tauto|].
        eapply verdict_iff; [| |apply verdict_ok]; [rewrite L; tauto|rewrite D; tauto].
      + assert (Nf : full (d_kind (TExt b x fs c s))) by (apply Fu; intros b' X; discriminate X).
        destruct (is_annotation_key key) eqn:Ea.
        { destruct (entry_by_annotation _ key val Nf Nk Ea) as [L D]. unfold step_in. cbn [getf step]. do 2 apply verdict_bind.
          eapply verdict_iff; [| |apply annotation_verdict]; [symmetry; exact L|tauto]. }
        destruct (entry_by_extra (d_kind (TExt b x fs c s)) key val Nk) as [L D]; [intros _; exact Ea|].
        destruct (is_string key && String.eqb (value key) "") eqn:Ee.
        { apply andb_true_iff in Ee as [E1 E2]. apply String.eqb_eq in E2. pose proof (is_string_denotes _ _ E1 E2) as De.
          eapply verdict_iff; [| |apply verdict_panic]; [rewrite L; tauto|rewrite D; tauto]. }
        assert (De : ~ denotes_string key "").
        { intros X. pose proof (denotes_value _ _ X) as E2. assert (E1 : is_string key = true) by (apply is_string_iff; exists ""; exact X).
          rewrite E1, E2 in Ee. discriminate Ee. }
        unfold step_in. cbn [getf step bind]. eapply verdict_iff; [| |apply verdict_ok]; [rewrite L; tauto|rewrite D; tauto].
  Qed.

  Lemma no_entries_die k e : ~ full k -> ~ entry_dies k e.
  Proof.
    intros N X. assert (Nf : facets_of k = []) by (destruct k; try reflexivity; destruct N; split; discriminate).
    inversion X; subst; try tauto; match goal with H : In _ (facets_of k) |- _ => rewrite Nf in H; destruct H end.
  Qed.

  (** The outcome of reading a type definition. *)
  Theorem type_verdict n : verdict (hat n) (loads n) (dies n).
  Proof.
    induction n as [n IH] using node_strong_ind. rewrite hat_eq. unfold hat_body.
    destruct (is_string n) eqn:Es.
    { apply is_string_iff in Es as Sn. eapply verdict_iff; [| |apply verdict_ok].
      - split; [intros _; apply loads_string; exact Sn|trivial].
      - split; [tauto|]. intros X. inversion X; subst. destruct t; try discriminate Es. congruence. }
    assert (Nd : forall t v, n = Scal t v \/ (exists l, n = Seq t l) -> ~ dies n).
    { intros t v [->|[l ->]] X; inversion X. }
    destruct n as [t v|t l|t l].
    - assert (Nl : t <> TInclude -> ~ loads (Scal t v)).
      { intros N X. inversion X; subst; [|congruence]. apply is_string_iff in H. congruence. }
      pose proof (Nd t v (or_introl eq_refl)) as D. destruct t; try (eapply verdict_iff; [| |apply verdict_err]; [split; [tauto|apply Nl; discriminate]|tauto]).
      eapply verdict_iff; [| |apply verdict_ok]; [|tauto]. split; [intros _; apply loads_include|trivial].
    - eapply verdict_iff; [| |apply verdict_err]; [split; [tauto|]|split; [tauto|apply (Nd t ""); right; eauto]].
      intros X. inversion X; subst. apply is_string_iff in H. congruence.
    - assert (Ht : t <> TStr) by (intros ->; discriminate Es).
      assert (Lo : forall k, classified l k -> loads (Map t l) <-> forall e, In e l -> entry_loads k e).
      { intros k Hk. split; [|intros X; eapply loads_map; eassumption]. intros X. inversion X; subst; [apply is_string_iff in H; congruence|].
        match goal with C : classified l ?k0 |- _ => match k0 with k => fail 1 | _ => rewrite (classified_fun _ _ _ Hk C); assumption end end. }
      assert (Di : forall k, classified l k -> dies (Map t l) <-> first (entry_loads k) (entry_dies k) l).
      { intros k Hk. split.
        - intros X. inversion X; subst. match goal with C : classified _ ?k0 |- _ => match k0 with k => fail 1 | _ => rewrite (classified_fun _ _ _ Hk C) end end. eexists. eexists. eexists. split; [reflexivity|]. auto.
        - intros [pre [e [post [E [X1 X2]]]]]. eapply dies_map; eassumption. }
      destruct (sift_type l) as [d0| |] eqn:E0; cbn [bind].
      + pose proof (sift_classified _ _ E0) as Hk. destruct (sift_start l d0 E0) as [k [s E]].
        assert (Hs0 : shaped d0) by (rewrite E; apply shaped_set_schema, shaped_new).
        eapply verdict_iff; [symmetry; apply (Lo _ Hk)|symmetry; apply (Di _ Hk)|].
        apply (verdict_fold (type_assign hat) (fun d => shaped d /\ d_kind d = d_kind d0)).
        * intros d [key val] Hi [Hs Hd]. rewrite <- Hd. apply entry_verdict; [exact Hs|]. intros m Hm. apply IH.
          pose proof (size_map_val t l key val Hi). lia.
        * intros d e d' [Hs Hd] H. apply assign_kind in H as [H1 H2]. split; [|congruence]. unfold shaped in *. rewrite H1. eapply same_shape_trans; eassumption.
        * auto.
      + (* the first type key has no string *)
        assert (X : exists pre k v post, l = pre ++ (k, v) :: post /\ no_type_key pre /\ (value k = "type" \/ value k = "schema") /\ ~ a_string v).
        { destruct (has_type_key l) eqn:Et; [|rewrite sift_shape in E0 by exact Et; discriminate E0].
          apply split_type_key in Et as [pre [k [v [post [-> [H1 H2]]]]]]. rewrite sift_first in E0 by assumption. exists pre, k, v, post.
          split; [reflexivity|]. split; [apply no_type_key_iff; exact H1|]. split; [apply is_type_key_iff; exact H2|]. rewrite <- is_string_iff.
          destruct (is_string v); congruence. }
        destruct X as [pre [k [v [post [El [X1 [X2 X3]]]]]]].
        assert (Hc : forall kd, classified l kd -> kd = TyInclude).
        { intros kd Hk. destruct Hk as [p k' v' q s kd' N K Dn Nm|p k' v' q N K Tn|l N _|l N _ _|l N _ _]; try reflexivity; exfalso.
          - apply first_type_unique in El as [_ [El _]]; try assumption; try (apply is_type_key_iff; assumption). injection El as -> ->. apply X3. exists s. exact Dn.
          - subst l. destruct (N (k, v)) as [A B]; [apply in_or_app; right; left; reflexivity|]. cbn in *; tauto.
          - subst l. destruct (N (k, v)) as [A B]; [apply in_or_app; right; left; reflexivity|]. cbn in *; tauto.
          - subst l. destruct (N (k, v)) as [A B]; [apply in_or_app; right; left; reflexivity|]. cbn in *; tauto. }
        eapply verdict_iff; [| |apply verdict_err]; split; try tauto.
        * intros X. inversion X; subst; [apply is_string_iff in H; congruence|]. apply X3.
          match goal with H : forall e, In e _ -> entry_loads ?k0 e |- _ => apply (entry_by_type k0 k v X2); apply H end. apply in_or_app. right. left. reflexivity.
        * intros X. inversion X; subst. match goal with C : classified _ _, D : entry_dies _ _ |- _ => rewrite (Hc _ C) in D; revert D end. apply no_entries_die. intros [_ N]. congruence.
      + destruct (sift_not_panic _ E0).
  Qed.

  (** ** Documentation *)

  Lemma doc_entry_verdict d e : verdict (doc_assign d e) (doc_entry e) False.
  Proof.
    destruct e as [key val]. unfold doc_assign. cbn [fst snd].
    apply verdict_case; intros C; [apply String.eqb_eq in C|apply String.eqb_neq in C].
    { eapply verdict_iff; [| |apply verdict_ok]; [|tauto]. split; [|tauto]. intros _. apply doc_text. auto. }
    apply verdict_case; intros C'; [apply String.eqb_eq in C'|apply String.eqb_neq in C'].
    { eapply verdict_iff; [| |apply verdict_ok]; [|tauto]. split; [|tauto]. intros _. apply doc_text. auto. }
    apply verdict_bind. eapply verdict_iff; [| |apply key_verdict]; [|tauto]. split; [apply doc_other; assumption|].
    intros X. inversion X; subst; [|assumption]. match goal with H : _ \/ _ |- _ => destruct H; contradiction end.
  Qed.

  Lemma doc_verdict n d : verdict (doc_unmarshal n d) (entries doc_entry n) False.
  Proof.
    eapply verdict_iff; [| |apply (map_verdict doc_assign (fun _ => True) doc_entry (fun _ => False))]; try trivial; [reflexivity| |intros; apply doc_entry_verdict].
    split; [|tauto]. intros [t [l [_ X]]]. exact (no_first _ _ X).
  Qed.

  Lemma docs_verdict n o : verdict (read_docs n o) (sequence (entries doc_entry) n) False.
  Proof. apply (seq_verdict _ (fun _ => True)); auto. intros s v _. apply verdict_bind, doc_verdict. Qed.

  Lemma media_verdict n o : verdict (read_media n o) (a_string n \/ sequence a_string n) False.
  Proof.
    unfold read_media. destruct (is_string n) eqn:E.
    - eapply verdict_iff; [| |apply verdict_ok]; [|tauto]. apply is_string_iff in E. tauto.
    - eapply verdict_iff; [| |apply strings_verdict]; [|tauto]. split; [auto|]. intros [X|X]; [|exact X]. apply is_string_iff in X. congruence.
  Qed.

  Lemma untyped_verdict n m : verdict (read_untyped m n) (mapping anything n) False.
  Proof.
    eapply verdict_iff; [| |apply (amap_verdict as_gnode anything (fun _ => False))]; [reflexivity| |intros; apply verdict_ok].
    split; [|tauto]. apply mapping_no_first.
  Qed.

  Lemma string_map_verdict n m : verdict (read_strings m n) (mapping a_string n) False.
  Proof.
    eapply verdict_iff; [| |apply (amap_verdict to_str a_string (fun _ => False))]; [reflexivity| |intros; apply str_verdict].
    split; [|tauto]. apply mapping_no_first.
  Qed.

  Lemma annotations_verdict n m : verdict (read_annotations m n) (mapping (mapping anything) n) False.
  Proof.
    eapply verdict_iff; [| |apply (amap_verdict read_annotation (mapping anything) (fun _ => False))]; [reflexivity| |intros; apply annotation_verdict].
    split; [|tauto]. apply mapping_no_first.
  Qed.

  Lemma types_verdict n m : verdict (read_types m n) (mapping loads n) (mapping_first loads dies n).
  Proof. apply amap_verdict. intros. apply type_verdict. Qed.

  (** ** API documents *)

  Lemma string_key key : a_string key -> value key <> "" -> a_key key.
  Proof.
    intros [s [St _]] N. destruct key as [t v|t l|t l]; cbn [value] in N; try congruence. cbn in St. subst t. exists v. auto.
  Qed.

  (** An entry by its key. *)
  Lemma api_by_known key val s good : denotes_string key s -> api_value s = Some good -> (api_entry (key, val) <-> good val) /\
    (api_entry_dies (key, val) <-> (s = "types" \/ s = "schemas") /\ mapping_first loads dies val).
  Proof.
    intros Ds G. pose proof (denotes_value _ _ Ds) as Ev. split; split.
    - intros X. inversion X; subst.
      + match goal with H : denotes_string key _ |- _ => apply denotes_value in H end. congruence.
      + match goal with H : is_annotation_key _ = true |- _ => apply annotation_text in H as [r E] end. rewrite E in G. discriminate G.
      + match goal with H : denotes_string key (String "/" _) |- _ => apply denotes_value in H; rewrite H in G; discriminate G end.
      + match goal with H : forall s, denotes_string key s -> _ |- _ => destruct (H _ Ds); congruence end.
    - intros X. eapply api_known; eassumption.
    - intros X. inversion X; subst; [match goal with H : denotes_string key "" |- _ => apply denotes_value in H; rewrite H in G; discriminate G end|].
      split; [|assumption]. match goal with H : _ \/ _ |- _ => destruct H as [H|H]; apply denotes_value in H; auto end.
    - intros [X Y]. apply api_type; [|exact Y]. destruct X as [->| ->]; auto.
  Qed.

  Lemma api_by_plain {A} (r : res A) key val s good : denotes_string key s -> api_value s = Some good -> s <> "types" -> s <> "schemas" ->
    verdict r (good val) False -> verdict r (api_entry (key, val)) (api_entry_dies (key, val)).
  Proof. intros Ds G N1 N2 V. destruct (api_by_known key val s good Ds G) as [L D]. eapply verdict_iff; [symmetry; exact L| |exact V]. tauto. Qed.

  Lemma api_by_unknown key val : (forall s, denotes_string key s -> s <> "" /\ api_value s = None) -> is_annotation_key key = false ->
    (forall r, ~ denotes_string key (String "/" r)) ->
    (api_entry (key, val) <-> a_key key) /\ ~ api_entry_dies (key, val).
  Proof.
    intros U A R. split; [split|].
    - intros X. inversion X; subst; try assumption.
      + match goal with H : denotes_string key _ |- _ => destruct (U _ H); congruence end.
      + congruence.
      + match goal with H : denotes_string key _ |- _ => destruct (R _ H) end.
    - intros X. apply api_other; assumption.
    - intros X. inversion X; subst.
      + match goal with H : denotes_string key _ |- _ => destruct (U _ H); congruence end.
      + match goal with H : _ \/ _ |- _ => destruct H as [H|H]; destruct (U _ H) as [_ E]; discriminate E end.
  Qed.

  Lemma api_entry_verdict a e : verdict (api_assign a e) (api_entry e) (api_entry_dies e).
  Proof.
    destruct e as [key val]. unfold api_assign. cbn [fst snd]. destruct (is_string key) eqn:Es; cbn [negb].
    2:{ assert (N : forall s, ~ denotes_string key s).
        { intros s X. apply not_true_iff_false in Es. apply Es, is_string_iff. exists s. exact X. }
        destruct (api_by_unknown key val) as [L D].
        - intros s X. destruct (N _ X).
        - unfold is_annotation_key. rewrite Es. reflexivity.
        - intros r X. exact (N _ X).
        - apply verdict_bind. eapply verdict_iff; [| |apply key_verdict]; [symmetry; exact L|tauto]. }
    destruct (value key) as [|c r] eqn:Ev.
    { assert (X : denotes_string key "") by (apply is_string_denotes; assumption).
      eapply verdict_iff; [| |apply verdict_panic]; [|split; [intros _; apply api_empty; exact X|trivial]]. split; [tauto|]. intros Y. inversion Y; subst;
        match goal with
        | H : is_annotation_key _ = true |- _ => unfold is_annotation_key in H; rewrite Es, Ev in H; discriminate H
        | H : denotes_string key ?s, G : api_value ?s = Some _ |- _ => apply denotes_value in H; rewrite Ev in H; subst s; discriminate G
        | H : denotes_string _ _ |- _ => apply denotes_value in H; congruence
        | H : forall s, denotes_string key s -> _ |- _ => destruct (H _ X); congruence
        end. }
    assert (S : denotes_string key (String c r)) by (apply is_string_denotes; assumption).
    assert (Na : is_annotation_key key = Ascii.eqb c "(") by (unfold is_annotation_key; rewrite Es, Ev; reflexivity).
    assert (Nk : a_key key) by (apply string_key; [exists (String c r); exact S|rewrite Ev; discriminate]).
    destruct (Ascii.eqb c "(") eqn:Ec.
    { apply Ascii.eqb_eq in Ec. subst c. eapply verdict_iff; [| |apply verdict_bind, annotation_verdict].
      - split; [intros X; apply api_annotation; assumption|]. intros X. inversion X; subst; try assumption; exfalso;
          match goal with
          | H : denotes_string key ?s, G : api_value ?s = Some _ |- _ => apply denotes_value in H; rewrite Ev in H; subst s; discriminate G
          | H : denotes_string _ _ |- _ => apply denotes_value in H; congruence
          | H : is_annotation_key _ = false |- _ => congruence
          end.
      - split; [tauto|]. intros X. inversion X; subst; try (match goal with H : _ \/ _ |- _ => destruct H as [H|H] end);
          match goal with H : denotes_string _ _ |- _ => apply denotes_value in H; congruence end. }
    destruct (Ascii.eqb c "/") eqn:Ed.
    { apply Ascii.eqb_eq in Ed. subst c. eapply verdict_iff; [| |apply verdict_ok].
      - split; [intros _; eapply api_resource; exact S|trivial].
      - split; [tauto|]. intros X. inversion X; subst; try (match goal with H : _ \/ _ |- _ => destruct H as [H|H] end);
          match goal with H : denotes_string _ _ |- _ => apply denotes_value in H; congruence end. }
    assert (Ne : String c r <> "") by discriminate.
    assert (Nr : forall r', String c r <> String "/" r') by (intros r' X; injection X as -> _; discriminate Ed).
    remember (String c r) as s eqn:E0. clear E0 Ec Ed c r.
    unfold as_string, as_string_ptr. rewrite !run_assign_with.
    repeat (let C := fresh "C" in apply verdict_case; intros C; [|apply String.eqb_neq in C || apply orb_false_iff in C]);
      try (match goal with C : String.eqb _ _ = true |- _ => apply String.eqb_eq in C; rewrite C in S end;
           apply (api_by_plain _ key val _ _ S eq_refl); [discriminate|discriminate|]).
    all: try (do 2 apply verdict_bind; apply str_verdict).
    all: try (apply verdict_bind; apply strings_verdict).
    all: try (apply verdict_bind; apply media_verdict).
    all: try (apply verdict_bind; apply docs_verdict).
    all: try (apply verdict_bind; apply string_map_verdict).
    all: try (apply verdict_bind; apply untyped_verdict).
    - apply verdict_bind. assert (T : s = "types" \/ s = "schemas") by (match goal with H : _ || _ = true |- _ => apply orb_true_iff in H as [H|H]; apply String.eqb_eq in H; auto end).
      assert (G : api_value s = Some (mapping loads)) by (destruct T as [->| ->]; reflexivity).
      destruct (api_by_known key val _ _ S G) as [L D]. eapply verdict_iff; [symmetry; exact L| |apply types_verdict]. tauto.
    - match goal with H : _ /\ _ |- _ => destruct H as [T1 T2]; apply String.eqb_neq in T1, T2 end.
      destruct (api_by_unknown key val) as [L D].
      + intros s' X. apply denotes_value in X. rewrite Ev in X. subst s'. split; [exact Ne|].
        unfold api_value, lookup. cbn [find fst snd].
        repeat match goal with N : s <> _ |- _ => apply String.eqb_neq in N; rewrite N; clear N end. reflexivity.
      + exact Na.
      + intros r X. apply denotes_value in X. rewrite Ev in X. exact (Nr _ X).
      + apply verdict_bind. eapply verdict_iff; [| |apply key_verdict]; [symmetry; exact L|tauto].
  Qed.

  Theorem api_verdict n a : verdict (api_unmarshal n a) (api_loads n) (api_dies n).
  Proof. apply (map_verdict api_assign (fun _ => True) api_entry api_entry_dies); try trivial. intros. apply api_entry_verdict. Qed.

  (** ** Libraries *)

  Lemma lib_by_known key val good : lib_value (value key) = Some good -> (lib_entry (key, val) <-> good val) /\
    (lib_entry_dies (key, val) <-> (value key = "types" \/ value key = "schemas") /\ mapping_first loads dies val).
  Proof.
    intros G. split; split.
    - intros X. inversion X; subst.
      + congruence.
      + match goal with H : is_annotation_key _ = true |- _ => apply annotation_text in H as [r E] end. rewrite E in G. discriminate G.
      + congruence.
    - intros X. eapply lib_known; eassumption.
    - intros X. inversion X; subst; [match goal with H : denotes_string key "" |- _ => apply denotes_value in H; rewrite H in G; discriminate G end|].
      split; assumption.
    - intros [X Y]. apply lib_type; assumption.
  Qed.

  Lemma lib_by_plain {A} (r : res A) key val s good : value key = s -> lib_value s = Some good -> s <> "types" -> s <> "schemas" ->
    verdict r (good val) False -> verdict r (lib_entry (key, val)) (lib_entry_dies (key, val)).
  Proof. intros <- G N1 N2 V. destruct (lib_by_known key val good G) as [L D]. eapply verdict_iff; [symmetry; exact L| |exact V]. tauto. Qed.

  Lemma lib_by_unknown key val : lib_value (value key) = None -> ~ denotes_string key "" -> is_annotation_key key = false ->
    (lib_entry (key, val) <-> a_key key) /\ ~ lib_entry_dies (key, val).
  Proof.
    intros U N A. split; [split|].
    - intros X. inversion X; subst; try assumption; congruence.
    - intros X. apply lib_other; assumption.
    - intros X. inversion X; subst; [contradiction|]. match goal with H : _ \/ _ |- _ => destruct H as [E|E]; rewrite E in U; discriminate U end.
  Qed.

  Lemma lib_entry_verdict l e : verdict (lib_assign l e) (lib_entry e) (lib_entry_dies e).
  Proof.
    destruct e as [key val]. unfold lib_assign. cbn [fst snd]. unfold as_string_ptr. rewrite !run_assign_with.
    repeat match goal with |- verdict (if (_ =? _)%string || _ then _ else _) _ _ => fail 1 | |- verdict (if is_string _ then _ else _) _ _ => fail 1
      | _ => let C := fresh "C" in apply verdict_case; intros C; [apply String.eqb_eq in C; apply (lib_by_plain _ key val _ _ C eq_refl); [discriminate|discriminate|]|apply String.eqb_neq in C] end.
    - apply verdict_bind, annotations_verdict.
    - apply verdict_bind, untyped_verdict.
    - apply verdict_case; intros C1.
      { apply verdict_bind. assert (T : value key = "types" \/ value key = "schemas") by (apply orb_true_iff in C1 as [C1|C1]; apply String.eqb_eq in C1; auto).
        assert (G : lib_value (value key) = Some (mapping loads)) by (destruct T as [->| ->]; reflexivity).
        destruct (lib_by_known key val _ G) as [L D]. eapply verdict_iff; [symmetry; exact L| |apply types_verdict]. tauto. }
      apply orb_false_iff in C1 as [T1 T2]. apply String.eqb_neq in T1, T2.
      repeat match goal with |- verdict (if is_string _ then _ else _) _ _ => fail 1
        | _ => let C := fresh "C" in apply verdict_case; intros C; [apply String.eqb_eq in C; apply (lib_by_plain _ key val _ _ C eq_refl); [discriminate|discriminate|]|apply String.eqb_neq in C] end.
      + apply verdict_bind, untyped_verdict.
      + apply verdict_bind, string_map_verdict.
      + do 2 apply verdict_bind. apply str_verdict.
      + apply verdict_bind, untyped_verdict.
      + assert (U : lib_value (value key) = None).
        { unfold lib_value, lookup. cbn [find fst snd].
          repeat match goal with N : value key <> _ |- _ => apply String.eqb_neq in N; rewrite N; clear N end. reflexivity. }
        assert (Ot : ~ denotes_string key "" -> is_annotation_key key = false ->
          verdict (do s <- to_scalar key; Ok (l_set_extra (kput s (GNode val) (l_extra l)) l)) (lib_entry (key, val)) (lib_entry_dies (key, val))).
        { intros N A. destruct (lib_by_unknown key val U N A) as [L D]. apply verdict_bind.
          eapply verdict_iff; [| |apply key_verdict]; [symmetry; exact L|tauto]. }
        destruct (is_string key) eqn:Es.
        2:{ apply Ot; [|unfold is_annotation_key; rewrite Es; reflexivity]. intros X. apply not_true_iff_false in Es. apply Es, is_string_iff. exists "". exact X. }
        destruct (value key) as [|c r] eqn:Ev.
        { assert (X : denotes_string key "") by (apply is_string_denotes; assumption).
          eapply verdict_iff; [| |apply verdict_panic]; [|split; [intros _; apply lib_empty; exact X|trivial]]. split; [tauto|]. intros Y. inversion Y; subst.
          - match goal with H : lib_value _ = Some _ |- _ => rewrite Ev in H; discriminate H end.
          - match goal with H : is_annotation_key _ = true |- _ => unfold is_annotation_key in H; rewrite Es, Ev in H; discriminate H end.
          - contradiction. }
        assert (Nd : ~ denotes_string key "") by (intros X; apply denotes_value in X; congruence).
        assert (Na : is_annotation_key key = Ascii.eqb c "(") by (unfold is_annotation_key; rewrite Es, Ev; reflexivity).
        destruct (Ascii.eqb c "(") eqn:Ec; [|apply Ot; assumption].
        apply Ascii.eqb_eq in Ec. subst c. eapply verdict_iff; [| |apply verdict_bind, annotation_verdict].
        * split; [intros X; apply lib_annotation; assumption|]. intros X. inversion X; subst; try assumption; exfalso; congruence.
        * split; [tauto|]. intros X. inversion X; subst; [contradiction|]. match goal with H : _ \/ _ |- _ => destruct H; congruence end.
  Qed.

  Theorem lib_verdict n l : verdict (lib_unmarshal n l) (lib_loads n) (lib_dies n).
  Proof. apply (map_verdict lib_assign (fun _ => True) lib_entry lib_entry_dies); try trivial. intros. apply lib_entry_verdict. Qed.
End Verdicts.
