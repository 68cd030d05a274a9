(** What does not load has a small part that does not load. *)
From Coq Require Import SpecFloat.
From Verif Require Import Base Num OMap OMapSpec Keys Yaml Values Assign Formats Meta Out Xml Example DataType Doc Api Library
  AssignProofs TypeFacts Fields FieldProofs FacetSpec FacetProofs DocProofs Crash WriteSpec WriteProofs GrammarSpec Grammar Sizes Cuts.

(** The outcome without the value. *)
Definition out {A} (r : res A) : res unit := do _ <- r; Ok tt.

Lemma out_bind {A B} (r : res A) (g : A -> B) : out (do a <- r; Ok (g a)) = out r.
Proof. destruct r; reflexivity. Qed.

Lemma out_same {A B} (r : res A) (r' : res B) G D : verdict r G D -> verdict r' G D -> out r = out r'.
Proof.
  intros [HG HD] [HG' HD']. destruct r as [a| |] eqn:E, r' as [b| |] eqn:E'; cbn; try reflexivity; exfalso.
  - assert (X : exists x, @Err B = Ok x) by (apply HG', HG; eauto). destruct X as [x X]. discriminate X.
  - assert (X : exists x, @Panic B = Ok x) by (apply HG', HG; eauto). destruct X as [x X]. discriminate X.
  - assert (X : exists x, @Err A = Ok x) by (apply HG, HG'; eauto). destruct X as [x X]. discriminate X.
  - assert (X : @Err A = Panic) by (apply HD, HD'; reflexivity). discriminate X.
  - assert (X : exists x, @Panic A = Ok x) by (apply HG, HG'; eauto). destruct X as [x X]. discriminate X.
  - assert (X : @Err B = Panic) by (apply HD', HD; reflexivity). discriminate X.
Qed.

Lemma out_ok {A} (r : res A) : out r = Ok tt -> exists a, r = Ok a.
Proof. destruct r; try discriminate. eauto. Qed.
Lemma out_ok_of {A B} (r : res A) (r' : res B) b : out r = out r' -> r' = Ok b -> exists a, r = Ok a.
Proof. intros E ->. apply out_ok. exact E. Qed.
Lemma out_err {A} (r : res A) : out r = Err <-> r = Err.
Proof. destruct r; split; try discriminate; reflexivity. Qed.
Lemma out_panic {A} (r : res A) : out r = Panic <-> r = Panic.
Proof. destruct r; split; try discriminate; reflexivity. Qed.

(** ** Parts *)

Lemma none_items l : part_items [] l.
Proof. induction l; constructor; assumption. Qed.
Lemma none_entries l : part_entries [] l.
Proof. induction l; constructor; assumption. Qed.

Definition hollow (n : node) : node := match n with Scal t v => Scal t v | Seq t _ => Seq t [] | Map t _ => Map t [] end.

Lemma hollow_part n : part (hollow n) n.
Proof. destruct n; constructor; [apply none_items|apply none_entries]. Qed.
Lemma hollow_nodes n : nodes (hollow n) = 1%nat.
Proof. destruct n; reflexivity. Qed.

(** What a part shares with the whole. *)
Definition alike (m n : node) : Prop := node_tag m = node_tag n /\ value m = value n /\ is_seq m = is_seq n.
Lemma part_alike m n : part m n -> alike m n.
Proof. intros H. destruct H; repeat split. Qed.
Lemma hollow_alike n : alike (hollow n) n.
Proof. apply part_alike, hollow_part. Qed.
Lemma alike_string m n : alike m n -> is_string m = is_string n.
Proof. intros [E _]. unfold is_string. rewrite E. reflexivity. Qed.

Lemma levels_pos n : (1 <= levels n)%nat.
Proof. destruct n; cbn [levels]; lia. Qed.

Lemma list_max_in x l : In x l -> (x <= list_max l)%nat.
Proof.
  intros H. pose proof (proj1 (list_max_le l (list_max l)) (le_n _)) as X. rewrite Forall_forall in X. apply X. exact H.
Qed.
Lemma levels_item t l v : In v l -> (levels v < levels (Seq t l))%nat.
Proof. intros H. cbn [levels]. apply (in_map levels) in H. apply list_max_in in H. lia. Qed.
Lemma levels_entry t l k v : In (k, v) l -> (levels v < levels (Map t l))%nat /\ (levels k < levels (Map t l))%nat.
Proof.
  intros H. cbn [levels]. apply (in_map (fun e => match e with (k, v) => Nat.max (levels k) (levels v) end)) in H. apply list_max_in in H.
  cbn beta iota in H. lia.
Qed.

Lemma one_item l v v' : In v l -> part v' v -> part_items [v'] l.
Proof.
  intros H P. induction l as [|x l IH]; [destruct H|]. destruct H as [->|H]; [apply items_kept; [exact P|apply none_items]|apply items_left_out; auto].
Qed.
Lemma one_entry l k v k' v' : In (k, v) l -> part k' k -> part v' v -> part_entries [(k', v')] l.
Proof.
  intros H P Q. induction l as [|x l IH]; [destruct H|]. destruct H as [->|H]; [apply entries_kept; [exact P|exact Q|apply none_entries]|apply entries_left_out; auto].
Qed.
Lemma skip_entries a l l' : part_entries l' l -> part_entries l' (a ++ l).
Proof. intros H. induction a; [exact H|]. cbn. apply entries_left_out. exact IHa. Qed.
(** An entry, and one behind it. *)
Lemma two_entries a k v b k2 v2 k' v' k2' v2' : In (k2, v2) b -> part k' k -> part v' v -> part k2' k2 -> part v2' v2 ->
  part_entries [(k', v'); (k2', v2')] (a ++ (k, v) :: b).
Proof. intros H P Q P2 Q2. apply skip_entries. apply entries_kept; [exact P|exact Q|]. eapply one_entry; eassumption. Qed.

(** ** Finding *)

(** A small part at which reading ends in the same way. *)
Definition found {A} (f : node -> res A) (n : node) : Prop :=
  out (f n) <> Ok tt -> exists m, part m n /\ (nodes m + 3 <= 4 * levels n)%nat /\ out (f m) = out (f n).

Definition found_pair {A} (f : node * node -> res A) (e : node * node) : Prop :=
  out (f e) <> Ok tt -> exists k v, part k (fst e) /\ nodes k = 1%nat /\ part v (snd e) /\ (nodes v + 3 <= 4 * levels (snd e))%nat /\
    out (f (k, v)) = out (f e).

Lemma found_leaf {A} (f : node -> res A) n : out (f (hollow n)) = out (f n) -> found f n.
Proof. intros E _. exists (hollow n). split; [apply hollow_part|]. rewrite hollow_nodes. split; [pose proof (levels_pos n); lia|exact E]. Qed.

Lemma found_same {A B} (f : node -> res A) (g : node -> res B) n : (forall m, out (f m) = out (g m)) -> found g n -> found f n.
Proof. intros E H X. rewrite E in X. destruct (H X) as [m [P [S O]]]. exists m. split; [exact P|]. split; [exact S|]. rewrite !E. exact O. Qed.

(** The first that is not good. *)
Lemma fold_stops {A S} (f : S -> A -> res S) (I : S -> Prop) l : (forall s a s', I s -> f s a = Ok s' -> I s') ->
  (forall s s' a, I s -> I s' -> out (f s a) = out (f s' a)) -> forall s0, I s0 -> forall s, I s -> out (fold_res f s l) <> Ok tt ->
  exists pre e post, l = pre ++ e :: post /\ (forall p, In p pre -> out (f s0 p) = Ok tt) /\ out (f s0 e) = out (fold_res f s l).
Proof.
  intros HI HS s0 I0. induction l as [|a l IH]; intros s Is H; [destruct H; reflexivity|]. cbn [fold_res] in *.
  destruct (f s a) as [s1| |] eqn:E; cbn [bind] in *.
  - destruct (IH s1 (HI _ _ _ Is E) H) as [pre [e [post [-> [X Y]]]]]. exists (a :: pre), e, post. split; [reflexivity|]. split; [|exact Y].
    intros p [<-|Hp]; [|auto]. rewrite (HS s0 s a I0 Is), E. reflexivity.
  - exists [], a, l. split; [reflexivity|]. split; [intros p []|]. rewrite (HS s0 s a I0 Is), E. reflexivity.
  - exists [], a, l. split; [reflexivity|]. split; [intros p []|]. rewrite (HS s0 s a I0 Is), E. reflexivity.
Qed.

Lemma found_map {S} (f : S -> node * node -> res S) s n : (forall s s' a, out (f s a) = out (f s' a)) ->
  (forall t l e, n = Map t l -> In e l -> found_pair (f s) e) -> found (map_fold f s) n.
Proof.
  intros HS H X. destruct n as [t v|t l|t l]; [apply found_leaf; [reflexivity|exact X]|apply found_leaf; [reflexivity|exact X]|].
  cbn [map_fold] in *. destruct (fold_stops f (fun _ => True) l) with (s0 := s) (s := s) as [pre [e [post [El [_ O]]]]]; auto.
  assert (Hi : In e l) by (rewrite El; apply in_or_app; right; left; reflexivity). rewrite <- O in X.
  destruct (H t l e eq_refl Hi X) as [k [v [P [K [Q [Sz O']]]]]]. destruct e as [k0 v0]. cbn [fst snd] in *.
  exists (Map t [(k, v)]). split; [constructor; eapply one_entry; eassumption|]. split.
  - cbn [nodes map list_sum fold_right]. destruct (levels_entry t l k0 v0 Hi) as [L _]. lia.
  - cbn [map_fold fold_res]. rewrite <- O, <- O'. destruct (f s (k, v)); reflexivity.
Qed.

Lemma found_seq {S} (f : S -> node -> res S) s n : (forall s s' a, out (f s a) = out (f s' a)) ->
  (forall t l v, n = Seq t l -> In v l -> found (f s) v) -> found (seq_fold f s) n.
Proof.
  intros HS H X. destruct n as [t v|t l|t l]; [apply found_leaf; [reflexivity|exact X]| |apply found_leaf; [reflexivity|exact X]].
  cbn [seq_fold] in *. destruct (fold_stops f (fun _ => True) l) with (s0 := s) (s := s) as [pre [e [post [El [_ O]]]]]; auto.
  assert (Hi : In e l) by (rewrite El; apply in_or_app; right; left; reflexivity). rewrite <- O in X.
  destruct (H t l e eq_refl Hi X) as [v [Q [Sz O']]].
  exists (Seq t [v]). split; [constructor; eapply one_item; eassumption|]. split.
  - cbn [nodes map list_sum fold_right]. pose proof (levels_item t l e Hi). lia.
  - cbn [seq_fold fold_res]. rewrite <- O, <- O'. destruct (f s v); reflexivity.
Qed.

Lemma out_to_str m n : alike m n -> out (to_str m) = out (to_str n).
Proof. intros H. unfold to_str. rewrite (alike_string _ _ H). destruct (is_string n); reflexivity. Qed.

(** An entry whose value is read by [f], or whose key is not read. *)
Lemma found_by_value {A B} (f : node * node -> res A) (g : node -> res B) e :
  (forall k v, alike k (fst e) -> out (f (k, v)) = out (g v)) -> found g (snd e) -> found_pair f e.
Proof.
  intros E H X. destruct e as [k v]. cbn [fst snd] in *. rewrite (E k v) in X by (repeat split). destruct (H X) as [m [P [Sz O]]].
  exists (hollow k), m. split; [apply hollow_part|]. split; [apply hollow_nodes|]. split; [exact P|]. split; [exact Sz|].
  rewrite E by apply hollow_alike. rewrite (E k v) by (repeat split). exact O.
Qed.
Lemma found_at_once {A} (f : node * node -> res A) e :
  out (f (hollow (fst e), hollow (snd e))) = out (f e) -> found_pair f e.
Proof.
  intros E _. exists (hollow (fst e)), (hollow (snd e)). split; [apply hollow_part|]. split; [apply hollow_nodes|]. split; [apply hollow_part|].
  rewrite hollow_nodes. split; [pose proof (levels_pos (snd e)); lia|exact E].
Qed.

Lemma found_scalar_key {A} (f : node * node -> res A) key val : hollow key = key -> found (fun v => f (key, v)) val -> found_pair f (key, val).
Proof.
  intros Hk H X. destruct (H X) as [m [P [S O]]]. exists key, m. cbn [fst snd]. split; [rewrite <- Hk at 1; apply hollow_part|].
  split; [rewrite <- Hk; apply hollow_nodes|]. auto.
Qed.
Lemma hollow_text n : value n <> "" -> hollow n = n.
Proof. destruct n; [reflexivity|contradiction..]. Qed.

Lemma found_amap {V} (dec : node -> res V) m n : (forall t l e, n = Map t l -> In e l -> found dec (snd e)) -> found (read_amap dec m) n.
Proof.
  intros H. apply found_map.
  - intros s s' e. unfold read_amap_pair. destruct (to_str (fst e)); cbn; try reflexivity. destruct (dec (snd e)); reflexivity.
  - intros t l e E Hi. destruct (to_str (fst e)) as [x| |] eqn:S.
    + apply (found_by_value _ dec); [|eapply H; eassumption]. intros k v Ak. unfold read_amap_pair. cbn [fst snd].
      destruct (out_ok_of (to_str k) (to_str (fst e)) x (out_to_str _ _ Ak) S) as [y ->]. cbn. destruct (dec v); reflexivity.
    + apply found_at_once. unfold read_amap_pair. cbn [fst snd]. rewrite S. cbn.
      pose proof (out_to_str _ _ (hollow_alike (fst e))) as O. rewrite S in O. destruct (to_str (hollow (fst e))); try discriminate O. reflexivity.
    + destruct (to_str_not_panic _ S).
Qed.

Lemma str_found n : found to_str n.
Proof. apply found_leaf, out_to_str, hollow_alike. Qed.
Lemma bool_found n : found to_bool n.
Proof. apply found_leaf. destruct n; reflexivity. Qed.
Lemma int_found n : found to_int n.
Proof. apply found_leaf. destruct n; reflexivity. Qed.
Lemma annotation_found n : found read_annotation n.
Proof. apply found_amap. intros t l e _ _ X. destruct X. reflexivity. Qed.

Lemma strings_found o n : found (fun v => run_assign (as_string_list v o)) n.
Proof.
  apply (found_same _ (seq_fold (fun (_ : unit) v => do _ <- to_str v; Ok tt) tt)).
  - intros m. eapply out_same; [apply strings_verdict|]. apply (seq_verdict _ (fun _ => True)); auto.
    intros s v _. apply verdict_bind, str_verdict.
  - apply found_seq; [reflexivity|]. intros t l v _ _. apply (found_same _ to_str); [intros m; apply out_bind|apply str_found].
Qed.

Section Found.
  Context {F : FloatIO}.

  Lemma float_found n : found to_float n.
  Proof. apply found_leaf. destruct n; reflexivity. Qed.
  Lemma out_hollow_scalar n : out (to_scalar (hollow n)) = out (to_scalar n).
  Proof. destruct n; reflexivity. Qed.

  Lemma ex_val_found k n : found (ex_val k) n.
  Proof.
    destruct k; cbn [ex_val];
      try (apply (found_same _ to_str); [intros m; apply out_bind|apply str_found]);
      try (apply (found_same _ to_bool); [intros m; apply out_bind|apply bool_found]);
      try (apply (found_same _ to_int); [intros m; apply out_bind|apply int_found]);
      try (apply (found_same _ to_float); [intros m; apply out_bind|apply float_found]);
      apply found_leaf; destruct n; reflexivity.
  Qed.

  Lemma text_found {A} (g : option string -> A) o n : found (fun v => do x <- run_assign (as_string_ptr v o); Ok (g x)) n.
  Proof. apply (found_same _ to_str); [|apply str_found]. intros m. rewrite out_bind. unfold as_string_ptr. rewrite run_assign_with. apply out_bind. Qed.
  Lemma flag_found {A} (g : bool -> A) o n : found (fun v => do x <- run_assign (as_bool v o); Ok (g x)) n.
  Proof. apply (found_same _ to_bool); [|apply bool_found]. intros m. rewrite out_bind. unfold as_bool. rewrite run_assign_with. apply out_bind. Qed.
  Lemma flag_ptr_found {A} (g : option bool -> A) o n : found (fun v => do x <- run_assign (as_bool_ptr v o); Ok (g x)) n.
  Proof. apply (found_same _ to_bool); [|apply bool_found]. intros m. rewrite out_bind. unfold as_bool_ptr. rewrite run_assign_with. apply out_bind. Qed.
  Lemma bind_found {A B} (f : node -> res A) (g : A -> B) n : found f n -> found (fun v => do x <- f v; Ok (g x)) n.
  Proof. intros H. apply (found_same _ f); [intros m; apply out_bind|exact H]. Qed.

  Lemma ex_found k n : found (read_ex k) n.
  Proof.
    destruct n as [t v|t l|t l].
    - apply found_leaf. reflexivity.
    - intros X. unfold read_ex, ex_unmarshal in X. rewrite out_bind in X. destruct (ex_val_found k (Seq t l) X) as [m [P [S O]]]. exists m. split; [exact P|]. split; [exact S|].
      unfold read_ex. inversion P; subst. cbn [ex_unmarshal]. rewrite !out_bind. exact O.
    - assert (X : found (map_fold (ex_assign k) new_ex) (Map t l)).
      { apply found_map.
        - intros s s' a. eapply out_same; apply ex_entry_verdict.
        - intros t' l' [key val] _ _. destruct (is_string key) eqn:Es.
          2:{ apply found_at_once. unfold ex_assign. cbn [fst snd]. rewrite (alike_string _ _ (hollow_alike key)), Es. cbn [negb].
              rewrite !out_bind. apply out_hollow_scalar. }
          destruct (value key) as [|c r] eqn:Ev.
          { apply found_at_once. unfold ex_assign. cbn [fst snd]. destruct (hollow_alike key) as [Ht [Hv _]]. rewrite (alike_string _ _ (hollow_alike key)), Es, Hv, Ev. reflexivity. }
          apply found_scalar_key; [apply hollow_text; congruence|]. unfold ex_assign. cbn [fst snd]. rewrite Es, Ev. cbn [negb].
          destruct (Ascii.eqb c "("); [apply bind_found, annotation_found|].
          destruct (String.eqb _ _); [apply text_found|]. destruct (String.eqb _ _); [apply text_found|]. destruct (String.eqb _ _); [apply flag_found|].
          destruct (String.eqb _ _); [apply bind_found, ex_val_found|]. apply found_leaf. rewrite !out_bind. reflexivity. }
      intros Y. destruct (X Y) as [m [P [S O]]]. exists m. split; [exact P|]. split; [exact S|]. inversion P; subst. exact O.
  Qed.

  Lemma xml_found x n : found (fun v => xml_unmarshal v x) n.
  Proof.
    apply (found_map xml_assign).
    - intros s s' a. eapply out_same; apply xml_entry_verdict.
    - intros t l [key val] _ _. destruct (value key) as [|c r] eqn:Ev.
      + apply found_at_once. unfold xml_assign. cbn [fst snd]. destruct (hollow_alike key) as [_ [Hv _]]. rewrite Hv, Ev.
        change (String.eqb "" KeyAttribute) with false. change (String.eqb "" KeyWrapped) with false. change (String.eqb "" KeyName) with false.
        change (String.eqb "" KeyNamespace) with false. change (String.eqb "" KeyPrefix) with false. cbv iota. rewrite !out_bind. apply out_hollow_scalar.
      + apply found_scalar_key; [apply hollow_text; congruence|]. unfold xml_assign. cbn [fst snd]. rewrite Ev.
        do 2 (destruct (String.eqb _ _); [apply flag_ptr_found|]). do 3 (destruct (String.eqb _ _); [apply text_found|]).
        apply found_leaf. rewrite !out_bind. reflexivity.
  Qed.

  Lemma enum_elem_found k n : found (enum_elem k) n.
  Proof.
    destruct k; cbn [enum_elem]; try (apply bind_found; first [apply str_found|apply bool_found|apply int_found|apply float_found]);
      apply found_leaf; reflexivity.
  Qed.
  Lemma enum_found k o n : found (read_enum k o) n.
  Proof.
    apply found_seq; [intros s s' a; rewrite !out_bind; reflexivity|]. intros t l v _ _. apply bind_found, enum_elem_found.
  Qed.

  (** ** Type definitions *)

  Lemma target_alike d k k' : alike k' k -> target d k' = target d k.
  Proof. intros A. unfold target. rewrite (alike_string _ _ A). destruct A as [_ [-> _]]. reflexivity. Qed.

  Lemma property_found n : found hat n -> found (fun v => do d <- hat v; as_property d) n.
  Proof.
    intros H X. destruct (hat n) as [d| |] eqn:E; cbn [bind] in *.
    - destruct d as [b|]; [|destruct X; reflexivity].
      assert (Y : exists m b', part m n /\ (nodes m <= 3)%nat /\ (nodes m + 3 <= 4 * levels n)%nat /\ hat m = Ok (TBase b')).
      { rewrite hat_eq in E. unfold hat_body in E. destruct (is_string n) eqn:Es.
        { exists (hollow n), b. split; [apply hollow_part|]. rewrite hollow_nodes. split; [lia|]. split; [pose proof (levels_pos n); lia|].
          rewrite hat_eq. unfold hat_body. rewrite (alike_string _ _ (hollow_alike n)), Es. destruct (hollow_alike n) as [_ [-> _]]. exact E. }
        destruct n as [t v|t l|t l]; try discriminate E.
        { exists (Scal t v), b. split; [constructor|]. split; [cbn; lia|]. split; [cbn; lia|]. rewrite hat_eq. unfold hat_body. rewrite Es. exact E. }
        assert (Ht : t <> TStr) by (intros ->; discriminate Es).
        assert (E' : hat (Map t l) = Ok (TBase b)) by (rewrite hat_eq; unfold hat_body; rewrite Es; exact E). clear E.
        assert (Nf : ~ full (d_kind (TBase b))) by (intros X'; exact (proj2 (hat_base _ _ E') X' b eq_refl)).
        assert (Lo : loads (Map t l)) by (apply type_verdict; eauto).
        pose proof (expanded_kind _ _ _ Ht E') as C. remember (d_kind (TBase b)) as kd eqn:Ek.
        destruct C as [pre k v post s kd N K Dn Nm|pre k v post N K Tn|l N _|l N _ _|l N _ _]; try (destruct Nf; split; discriminate).
        - set (m := Map t [(hollow k, hollow v)]).
          assert (K' : value (hollow k) = "type" \/ value (hollow k) = "schema") by (destruct (hollow_alike k) as [_ [-> _]]; exact K).
          assert (Dn' : denotes_string (hollow v) s).
          { destruct Dn as [D1 D2]. destruct (hollow_alike v) as [A1 [A2 _]]. split; congruence. }
          assert (C : classified [(hollow k, hollow v)] kd) by (apply (by_type [] _ _ [] s); try assumption; intros e []).
          assert (Lm : loads m). { eapply loads_map; [exact Ht|exact C|]. intros e [<-|[]]. apply entry_type; [exact K'|]. exists s. exact Dn'. }
          apply type_verdict in Lm as [d Hd]. pose proof (expanded_kind _ _ _ Ht Hd) as C'. pose proof (classified_fun _ _ _ C C') as Ed.
          destruct d as [b'|b' x fs c sp].
          + exists m, b'. split; [constructor; eapply one_entry; [apply in_or_app; right; left; reflexivity|apply hollow_part..]|].
            assert (Sz : nodes m = 3%nat) by (unfold m; cbn [nodes map list_sum fold_right]; rewrite !hollow_nodes; reflexivity). rewrite Sz.
            split; [lia|]. split; [|exact Hd]. destruct (levels_entry t (pre ++ (k, v) :: post) k v) as [L _]; [apply in_or_app; right; left; reflexivity|].
            pose proof (levels_pos v). lia.
          + destruct Nf. rewrite Ed. apply (hat_base _ _ Hd). intros b0 X'. discriminate X'.
        - exfalso. inversion Lo as [n0 A| |t0 l0 k0 Ht0 C0 L0]; subst; [apply is_string_iff in A; congruence|].
          assert (X' : entry_loads k0 (k, v)) by (apply L0; apply in_or_app; right; left; reflexivity). apply (entry_by_type k0 k v K) in X'.
          apply is_string_iff in X'. unfold is_string in X'. rewrite Tn in X'. discriminate X'. }
      destruct Y as [m [b' [P [_ [S Hm]]]]]. exists m. split; [exact P|]. split; [exact S|]. rewrite Hm. reflexivity.
    - assert (Y : out (hat n) <> Ok tt) by (rewrite E; discriminate). destruct (H Y) as [m [P [S O]]]. exists m. split; [exact P|]. split; [exact S|].
      rewrite E in O. destruct (hat m); try discriminate O. reflexivity.
    - assert (Y : out (hat n) <> Ok tt) by (rewrite E; discriminate). destruct (H Y) as [m [P [S O]]]. exists m. split; [exact P|]. split; [exact S|].
      rewrite E in O. destruct (hat m); try discriminate O. reflexivity.
  Qed.

  Lemma entry_found d key val : (forall m, (node_size m <= node_size val)%nat -> found hat m) -> found_pair (type_assign hat d) (key, val).
  Proof.
    intros IH. destruct (target d key) as [f|] eqn:T.
    2:{ apply found_at_once. cbn [fst snd]. rewrite !type_assign_step, (target_alike _ _ _ (hollow_alike key)), T. reflexivity. }
    apply (found_by_value _ (step_in hat d f key)); cbn [fst snd].
    { intros k v A. rewrite type_assign_step, (target_alike _ _ _ A), T. destruct A as [_ [Av _]]. f_equal. unfold step_in.
      destruct (getf f d) as [old|]; [|reflexivity]. f_equal. destruct f; try reflexivity; destruct old; cbn [step]; rewrite ?Av; reflexivity. }
    unfold step_in. destruct (getf f d) as [old|]; [|apply found_leaf; reflexivity]. apply bind_found.
    destruct f; destruct old; cbn [step]; try (apply found_leaf; reflexivity);
      try (apply bind_found; first [apply str_found|apply bool_found|apply int_found|apply float_found|apply annotation_found|apply xml_found|apply enum_found|apply strings_found|apply IH; reflexivity]);
      try (destruct (has_example (d_kind d)); [apply bind_found, ex_found|apply found_leaf; reflexivity]); apply bind_found.
    - apply found_amap. intros t l [a p] -> Hi. cbn [snd]. apply found_amap. intros t' l' [a' p'] -> Hi'. cbn [snd]. apply IH.
      pose proof (size_map_val t _ _ _ Hi). pose proof (size_map_val t' _ _ _ Hi'). lia.
    - apply found_amap. intros t l e _ _. apply ex_found.
    - apply found_amap. intros t l [a p] -> Hi. cbn [snd]. apply property_found, IH. pose proof (size_map_val t _ _ _ Hi). lia.
  Qed.

  Lemma assign_same d d' e : shaped d -> shaped d' -> d_kind d = d_kind d' -> out (type_assign hat d e) = out (type_assign hat d' e).
  Proof.
    intros S S' E. destruct e as [key val]. eapply out_same; [apply entry_verdict; [exact S|intros; apply type_verdict]|].
    rewrite E. apply entry_verdict; [exact S'|intros; apply type_verdict].
  Qed.

  Lemma hollow_loads n : loads n -> loads (hollow n).
  Proof.
    intros H. destruct n as [t v|t l|t l]; [exact H| |].
    - apply loads_string. inversion H; subst. apply is_string_iff. apply is_string_iff in H0. exact H0.
    - destruct (is_string (Map t l)) eqn:E; [apply loads_string, is_string_iff; exact E|]. eapply loads_map; [intros ->; discriminate E|apply by_default|intros e []].
      + intros e [].
      + intros [e [[] _]].
      + intros [e [[] _]].
  Qed.

  Lemma hollow_properties d k v : shaped d -> d_kind d = TyObject -> value k = "properties" -> out (type_assign hat d (k, v)) = Ok tt ->
    out (type_assign hat d (hollow k, hollow v)) = Ok tt.
  Proof.
    intros S E K H. apply out_ok in H. apply (entry_verdict d k v S) in H; [|intros; apply type_verdict]. rewrite E in H.
    assert (Fi : In FProps (facets_of TyObject)) by (cbn; tauto).
    apply (entry_by_facet TyObject k v FProps Fi) in H; [|rewrite K; reflexivity].
    assert (H' : entry_loads (d_kind d) (hollow k, hollow v)).
    { rewrite E. apply (entry_by_facet TyObject _ _ FProps Fi); [destruct (hollow_alike k) as [_ [-> _]]; rewrite K; reflexivity|]. right. right. left. split; [reflexivity|].
      destruct H as [[]|[[X _]|[[_ [t [l [-> _]]]]|[X _]]]]; try discriminate X. exists t, []. split; [reflexivity|intros e []]. }
    apply (entry_verdict d _ _ S) in H'; [|intros; apply type_verdict]. destruct H' as [d' ->]. reflexivity.
  Qed.

  Lemma hollow_items d k v : shaped d -> d_kind d = TyArray -> value k = "items" -> out (type_assign hat d (k, v)) = Ok tt ->
    out (type_assign hat d (hollow k, hollow v)) = Ok tt.
  Proof.
    intros S E K H. apply out_ok in H. apply (entry_verdict d k v S) in H; [|intros; apply type_verdict]. rewrite E in H.
    assert (Fi : In FItems (facets_of TyArray)) by (cbn; tauto).
    apply (entry_by_facet TyArray k v FItems Fi) in H; [|rewrite K; reflexivity].
    assert (H' : entry_loads (d_kind d) (hollow k, hollow v)).
    { rewrite E. apply (entry_by_facet TyArray _ _ FItems Fi); [destruct (hollow_alike k) as [_ [-> _]]; rewrite K; reflexivity|]. right. left. split; [reflexivity|].
      apply hollow_loads. destruct H as [[]|[[_ X]|[[X _]|[X _]]]]; try discriminate X. exact X. }
    apply (entry_verdict d _ _ S) in H'; [|intros; apply type_verdict]. destruct H' as [d' ->]. reflexivity.
  Qed.

  Lemma hat_found n : found hat n.
  Proof.
    induction n as [n IH] using node_strong_ind. intros X. destruct (is_string n) eqn:Es.
    { destruct X. rewrite hat_eq. unfold hat_body. rewrite Es. reflexivity. }
    destruct n as [t v|t l|t l]; [apply found_leaf; [reflexivity|exact X]| |].
    { exists (Seq t []). split; [constructor; apply none_items|]. split; [cbn [nodes levels map list_sum fold_right]; lia|].
      rewrite !hat_eq. unfold hat_body. change (is_string (Seq t [])) with (is_string (Seq t l)). rewrite Es. reflexivity. }
    assert (U : forall l', hat (Map t l') = do d <- sift_type l'; fold_res (type_assign hat) d l').
    { intros l'. rewrite hat_eq. unfold hat_body. change (is_string (Map t l')) with (is_string (Map t l)). rewrite Es. reflexivity. }
    unfold found in *. rewrite U in *. destruct (sift_type l) as [d0| |] eqn:E0; cbn [bind] in *.
    - pose proof (sift_start l d0 E0) as [k [s Ed]]. assert (Hs0 : shaped d0) by (rewrite Ed; apply shaped_set_schema, shaped_new).
      set (I := fun d => shaped d /\ d_kind d = d_kind d0).
      assert (HI : forall d e d', I d -> type_assign hat d e = Ok d' -> I d').
      { intros d e d' [Hs Hd] H. apply assign_kind in H as [H1 H2]. split; [|congruence]. unfold shaped in *. rewrite H1. eapply same_shape_trans; eassumption. }
      assert (HS : forall d d' e, I d -> I d' -> out (type_assign hat d e) = out (type_assign hat d' e)).
      { intros d d' e [A B] [A' B']. apply assign_same; congruence. }
      assert (I0 : I d0) by (split; auto).
      destruct (fold_stops (type_assign hat) I l HI HS d0 I0 d0 I0 X) as [pre [e [post [El [Gp O]]]]].
      assert (Hi : In e l) by (rewrite El; apply in_or_app; right; left; reflexivity). destruct e as [ke ve].
      assert (FP : found_pair (type_assign hat d0) (ke, ve)).
      { apply entry_found. intros m Hm. refine (IH m _). pose proof (size_map_val t l ke ve Hi). lia. }
      rewrite <- O in X. destruct (FP X) as [k' [v' [P [K [Q [Sz O']]]]]]. cbn [fst snd] in *. clear FP.
      assert (Lv : (levels ve < levels (Map t l))%nat) by (apply (levels_entry t l ke ve Hi)).
      rewrite <- O.
      (* alone, behind an entry that is good, in front of anything *)
      assert (A1 : sift_type [(k', v')] = Ok d0 -> exists m, part m (Map t l) /\ (nodes m + 3 <= 4 * levels (Map t l))%nat /\ out (hat m) = out (type_assign hat d0 (ke, ve))).
      { intros Si. exists (Map t [(k', v')]). split; [constructor; eapply one_entry; eassumption|]. split.
        - cbn [nodes map list_sum fold_right]. lia.
        - rewrite U, Si. cbn [bind fold_res]. rewrite <- O'. destruct (type_assign hat d0 (k', v')); reflexivity. }
      assert (A2 : forall kp vp, In (kp, vp) pre -> sift_type [(hollow kp, hollow vp); (k', v')] = Ok d0 -> out (type_assign hat d0 (hollow kp, hollow vp)) = Ok tt ->
        exists m, part m (Map t l) /\ (nodes m + 3 <= 4 * levels (Map t l))%nat /\ out (hat m) = out (type_assign hat d0 (ke, ve))).
      { intros kp vp Hp Si Go. exists (Map t [(hollow kp, hollow vp); (k', v')]). split.
        - constructor. rewrite El. apply in_split in Hp as [pre1 [pre2 ->]]. rewrite <- app_assoc. cbn [app].
          eapply two_entries; [apply in_or_app; right; left; reflexivity|apply hollow_part|apply hollow_part|exact P|exact Q].
        - split; [cbn [nodes map list_sum fold_right]; rewrite !hollow_nodes; lia|]. rewrite U, Si. cbn [bind fold_res].
          apply out_ok in Go as [d1 Go]. rewrite Go. cbn [bind]. rewrite <- O', (HS d0 d1 (k', v') I0 (HI _ _ _ I0 Go)).
          destruct (type_assign hat d1 (k', v')); reflexivity. }
      assert (A3 : forall kp vp, In (kp, vp) post -> sift_type [(k', v'); (hollow kp, hollow vp)] = Ok d0 ->
        exists m, part m (Map t l) /\ (nodes m + 3 <= 4 * levels (Map t l))%nat /\ out (hat m) = out (type_assign hat d0 (ke, ve))).
      { intros kp vp Hp Si. exists (Map t [(k', v'); (hollow kp, hollow vp)]). split.
        - constructor. rewrite El. eapply two_entries; [exact Hp|exact P|exact Q|apply hollow_part|apply hollow_part].
        - split; [cbn [nodes map list_sum fold_right]; rewrite !hollow_nodes; lia|]. rewrite U, Si. cbn [bind fold_res].
          rewrite <- O'. rewrite <- O' in X. destruct (type_assign hat d0 (k', v')) as [d1| |]; [destruct X; reflexivity|reflexivity|reflexivity]. }
      assert (Ak : alike k' ke) by (apply part_alike; exact P). assert (Av : alike v' ve) by (apply part_alike; exact Q).
      assert (Kt : forall a b, alike a b -> is_type_key a = is_type_key b) by (intros a b [_ [E _]]; unfold is_type_key; rewrite E; reflexivity).
      destruct (has_type_key l) eqn:Et.
      + apply split_type_key in Et as [pre0 [kt [vt [post0 [El0 [N0 T0]]]]]]. rewrite El0, sift_first in E0 by assumption.
        assert (Si : forall a ka va b, has_type_key a = false -> alike ka kt -> alike va vt -> sift_type (a ++ (ka, va) :: b) = Ok d0).
        { intros a ka va b Na A B. rewrite sift_first; [|exact Na|rewrite (Kt _ _ A); exact T0]. rewrite (alike_string _ _ B). destruct B as [-> [-> ->]]. exact E0. }
        assert (C : In (kt, vt) pre \/ (kt, vt) = (ke, ve) \/ (In (kt, vt) post /\ is_type_key ke = false)).
        { rewrite El in El0. clear -El0 N0. revert pre0 El0 N0. induction pre as [|x pre IHp]; intros pre0 El0 N0.
          - destruct pre0 as [|y pre0]; cbn in El0.
            + injection El0 as E1 E2 E3. right. left. congruence.
            + injection El0 as E1 E2. right. right. split; [rewrite E2; apply in_or_app; right; left; reflexivity|].
              subst y. cbn in N0. apply orb_false_iff in N0 as [N0 _]. exact N0.
          - destruct pre0 as [|y pre0]; cbn in El0.
            + injection El0 as E1 E2. left. left. exact E1.
            + injection El0 as E1 E2. cbn in N0. apply orb_false_iff in N0 as [_ N0]. destruct (IHp pre0 E2 N0) as [H|H]; [left; right; exact H|right; exact H]. }
        destruct C as [C|[C|[C Nk]]].
        * apply (A2 kt vt C); [apply (Si []); [reflexivity|apply hollow_alike..]|].
          pose proof (Gp _ C) as G. rewrite <- G. rewrite !type_assign_step, (target_alike _ _ _ (hollow_alike kt)).
          apply is_type_key_iff in T0. rewrite (target_type d0 kt Hs0 T0). unfold step_in. destruct (getf FType d0); [|reflexivity]. cbn [step]. rewrite !out_bind.
          apply out_to_str, hollow_alike.
        * injection C as -> ->. apply A1. apply (Si []); [reflexivity|assumption..].
        * apply (A3 kt vt C). apply (Si [(k', v')]); [|apply hollow_alike..]. cbn. rewrite (Kt _ _ Ak), Nk. reflexivity.
      + assert (Ne : forall e, In e l -> is_type_key (fst e) = false).
        { intros e He. destruct (is_type_key (fst e)) eqn:Z; [|reflexivity]. assert (Y : has_type_key l = true) by (apply existsb_exists; eauto). congruence. }
        assert (Nk : is_type_key k' = false) by (rewrite (Kt _ _ Ak); apply (Ne (ke, ve)); exact Hi).
        rewrite sift_shape in E0 by exact Et. injection E0 as E0.
        assert (Kv : value k' = value ke) by apply Ak.
        assert (S2 : forall a b, is_type_key (fst a) = false -> is_type_key (fst b) = false -> has_type_key [a; b] = false).
        { intros a b Na Nb. cbn. rewrite Na, Nb. reflexivity. }
        destruct (has_key KeyProperties l) eqn:Hp; [|destruct (has_key KeyItems l) eqn:Hq].
        * apply existsb_exists in Hp as [[kp vp] [Hp Ep]]. cbn [fst] in Ep.
          assert (Np : is_type_key (hollow kp) = false) by (rewrite (Kt _ _ (hollow_alike kp)); apply (Ne (kp, vp)); exact Hp).
          assert (Ep' : String.eqb (value (hollow kp)) KeyProperties = true) by (destruct (hollow_alike kp) as [_ [-> _]]; exact Ep).
          rewrite El in Hp. apply in_app_or in Hp as [C|[C|C]].
          -- apply (A2 kp vp C).
             ++ rewrite sift_shape by (apply S2; assumption). unfold has_key. cbn [existsb fst]. rewrite Ep'. cbn [orb]. rewrite E0. reflexivity.
             ++ subst d0. apply (hollow_properties _ kp vp Hs0); [reflexivity|apply String.eqb_eq; exact Ep|exact (Gp _ C)].
          -- injection C as -> ->. apply A1. rewrite sift_shape by (cbn; rewrite Nk; reflexivity). unfold has_key. cbn [existsb fst]. rewrite Kv, Ep. cbn [orb]. rewrite E0. reflexivity.
          -- apply (A3 kp vp C). rewrite sift_shape by (apply S2; assumption). unfold has_key. cbn [existsb fst]. rewrite Ep', orb_true_r. rewrite E0. reflexivity.
        * apply existsb_exists in Hq as [[kp vp] [Hq Ep]]. cbn [fst] in Ep.
          assert (Np : is_type_key (hollow kp) = false) by (rewrite (Kt _ _ (hollow_alike kp)); apply (Ne (kp, vp)); exact Hq).
          assert (Z : forall e, In e l -> String.eqb (value (fst e)) KeyProperties = false).
          { intros e He. destruct (String.eqb (value (fst e)) KeyProperties) eqn:Z; [|reflexivity]. rewrite <- Hp. symmetry. apply existsb_exists. exists e. auto. }
          assert (Z1 : String.eqb (value k') KeyProperties = false) by (rewrite Kv; apply (Z (ke, ve)); exact Hi).
          assert (Z2 : String.eqb (value (hollow kp)) KeyProperties = false) by (destruct (hollow_alike kp) as [_ [-> _]]; apply (Z (kp, vp)); exact Hq).
          assert (Ep' : String.eqb (value (hollow kp)) KeyItems = true) by (destruct (hollow_alike kp) as [_ [-> _]]; exact Ep).
          rewrite El in Hq. apply in_app_or in Hq as [C|[C|C]].
          -- apply (A2 kp vp C).
             ++ rewrite sift_shape by (apply S2; assumption). unfold has_key. cbn [existsb fst]. rewrite Ep', Z1, Z2. cbn [orb]. rewrite E0. reflexivity.
             ++ subst d0. apply (hollow_items _ kp vp Hs0); [reflexivity|apply String.eqb_eq; exact Ep|exact (Gp _ C)].
          -- injection C as -> ->. apply A1. rewrite sift_shape by (cbn; rewrite Nk; reflexivity). unfold has_key. cbn [existsb fst]. rewrite Z1, Kv, Ep. cbn [orb]. rewrite E0. reflexivity.
          -- apply (A3 kp vp C). rewrite sift_shape by (apply S2; assumption). unfold has_key. cbn [existsb fst]. rewrite Ep', Z1, Z2, orb_true_r. cbn [orb]. rewrite E0. reflexivity.
        * apply A1. rewrite sift_shape by (cbn; rewrite Nk; reflexivity). unfold has_key in *. cbn [existsb fst]. rewrite Kv.
          assert (Z : forall s, existsb (fun e : node * node => String.eqb (value (fst e)) s) l = false -> String.eqb (value ke) s = false).
          { intros s0 Y. destruct (String.eqb (value ke) s0) eqn:Z; [|reflexivity]. rewrite <- Y. symmetry. apply existsb_exists. exists (ke, ve). auto. }
          rewrite (Z _ Hp), (Z _ Hq). cbn [orb]. rewrite E0. reflexivity.
    - destruct (has_type_key l) eqn:Et; [|rewrite sift_shape in E0 by exact Et; discriminate E0].
      apply split_type_key in Et as [pre [k [v [post [-> [H1 H2]]]]]]. rewrite sift_first in E0 by assumption.
      assert (Hi : In (k, v) (pre ++ (k, v) :: post)) by (apply in_or_app; right; left; reflexivity).
      exists (Map t [(hollow k, hollow v)]). split; [constructor; eapply one_entry; [exact Hi|apply hollow_part..]|]. split.
      + cbn [nodes map list_sum fold_right]. rewrite !hollow_nodes. destruct (levels_entry t _ k v Hi) as [L _]. pose proof (levels_pos v). lia.
      + rewrite U. change [(hollow k, hollow v)] with ([] ++ (hollow k, hollow v) :: []). rewrite sift_first; [|reflexivity|].
        * rewrite (alike_string _ _ (hollow_alike v)). destruct (hollow_alike v) as [-> [-> ->]]. rewrite E0. reflexivity.
        * unfold is_type_key. destruct (hollow_alike k) as [_ [-> _]]. exact H2.
    - destruct (sift_not_panic _ E0).
  Qed.

  (** ** API documents and libraries *)

  Lemma types_found m n : found (read_types m) n.
  Proof. apply found_amap. intros t l e _ _. apply hat_found. Qed.
  Lemma untyped_found m n : found (read_untyped m) n.
  Proof. apply found_amap. intros t l e _ _. apply found_leaf. reflexivity. Qed.
  Lemma string_map_found m n : found (read_strings m) n.
  Proof. apply found_amap. intros t l e _ _. apply str_found. Qed.
  Lemma annotations_found m n : found (read_annotations m) n.
  Proof. apply found_amap. intros t l e _ _. apply annotation_found. Qed.

  Lemma doc_found d n : found (fun v => doc_unmarshal v d) n.
  Proof.
    apply (found_map doc_assign).
    - intros s s' a. eapply out_same; apply doc_entry_verdict.
    - intros t l [key val] _ _. apply found_at_once. unfold doc_assign. cbn [fst snd]. destruct (hollow_alike key) as [_ [-> _]].
      destruct (String.eqb _ _); [reflexivity|]. destruct (String.eqb _ _); [reflexivity|]. rewrite !out_bind. apply out_hollow_scalar.
  Qed.
  Lemma docs_found o n : found (fun v => read_docs v o) n.
  Proof.
    apply (found_seq read_doc).
    - intros s s' a. unfold read_doc. rewrite !out_bind. reflexivity.
    - intros t l v _ _. apply bind_found, doc_found.
  Qed.
  Lemma media_found o n : found (fun v => read_media v o) n.
  Proof.
    unfold read_media. destruct (is_string n) eqn:E; [intros X; destruct X; rewrite E; reflexivity|].
    intros X. rewrite E in X. destruct (strings_found o n X) as [m [P [S O]]]. exists m. split; [exact P|]. split; [exact S|].
    rewrite (alike_string _ _ (part_alike _ _ P)), E. exact O.
  Qed.

  Theorem api_found a n : found (fun v => api_unmarshal v a) n.
  Proof.
    apply (found_map api_assign).
    - intros s s' e. eapply out_same; apply api_entry_verdict.
    - intros t l [key val] _ _. destruct (is_string key) eqn:Es.
      2:{ apply found_at_once. unfold api_assign. cbn [fst snd]. rewrite (alike_string _ _ (hollow_alike key)), Es. cbn [negb].
          rewrite !out_bind. apply out_hollow_scalar. }
      destruct (value key) as [|c r] eqn:Ev.
      { apply found_at_once. unfold api_assign. cbn [fst snd]. destruct (hollow_alike key) as [Ht [Hv _]]. rewrite (alike_string _ _ (hollow_alike key)), Es, Hv, Ev. reflexivity. }
      apply found_scalar_key; [apply hollow_text; congruence|]. unfold api_assign. cbn [fst snd]. rewrite Es, Ev. cbn [negb].
      destruct (Ascii.eqb c "("); [apply bind_found, annotation_found|]. destruct (Ascii.eqb c "/"); [apply found_leaf; reflexivity|].
      unfold as_string. destruct (String.eqb _ _); [apply bind_found|].
      { apply (found_same _ to_str); [|apply str_found]. intros m. rewrite run_assign_with. apply out_bind. }
      do 3 (destruct (String.eqb _ _); [apply text_found|]). destruct (String.eqb _ _); [apply bind_found, strings_found|].
      destruct (String.eqb _ _); [apply bind_found, media_found|]. destruct (String.eqb _ _); [apply bind_found, docs_found|].
      destruct (String.eqb _ _); [apply bind_found, strings_found|]. destruct (String.eqb _ _); [apply bind_found, string_map_found|].
      do 5 (destruct (String.eqb _ _); [apply bind_found, untyped_found|]). destruct (_ || _); [apply bind_found, types_found|].
      apply found_leaf. rewrite !out_bind. reflexivity.
  Qed.

  Theorem lib_found l n : found (fun v => lib_unmarshal v l) n.
  Proof.
    apply (found_map lib_assign).
    - intros s s' e. eapply out_same; apply lib_entry_verdict.
    - intros t ps [key val] _ _. destruct (value key) as [|c r] eqn:Ev.
      + apply found_at_once. unfold lib_assign. cbn [fst snd]. destruct (hollow_alike key) as [Ht [Hv _]]. rewrite (alike_string _ _ (hollow_alike key)), Hv, Ev.
        change (String.eqb "" KeyAnnotationTypes) with false. change (String.eqb "" KeyResourceTypes) with false. change (String.eqb "" KeyTypes) with false.
        change (String.eqb "" KeySchemas) with false. change (String.eqb "" KeyTraits) with false. change (String.eqb "" KeyUses) with false.
        change (String.eqb "" KeyUsage) with false. change (String.eqb "" KeySecuritySchemes) with false. cbv iota. cbn [orb].
        destruct (is_string key); [reflexivity|]. rewrite !out_bind. apply out_hollow_scalar.
      + apply found_scalar_key; [apply hollow_text; congruence|]. unfold lib_assign. cbn [fst snd]. rewrite Ev.
        destruct (String.eqb _ _); [apply bind_found, annotations_found|]. destruct (String.eqb _ _); [apply bind_found, untyped_found|].
        destruct (_ || _); [apply bind_found, types_found|]. destruct (String.eqb _ _); [apply bind_found, untyped_found|].
        destruct (String.eqb _ _); [apply bind_found, string_map_found|]. destruct (String.eqb _ _); [apply text_found|].
        destruct (String.eqb _ _); [apply bind_found, untyped_found|].
        destruct (is_string key); [destruct (Ascii.eqb c "("); [apply bind_found, annotation_found|]|]; apply found_leaf; rewrite !out_bind; reflexivity.
  Qed.
End Found.
