(** What may be left out of a document that loads. *)
From Coq Require Import SpecFloat.
From Verif Require Import Base Num OMap OMapSpec Keys Yaml Values Assign Formats Meta Out Xml Example DataType Doc Api Library
  AssignProofs TypeFacts Fields FieldProofs FacetSpec FacetProofs DocProofs Crash WriteSpec WriteProofs GrammarSpec Grammar Sizes Cuts CutProofs.

Lemma trim_alike m n : trim m n -> alike m n.
Proof. intros H. destruct H; repeat split. Qed.

Lemma trim_items_in l l' v' : trim_items l' l -> In v' l' -> exists v, In v l /\ trim v' v.
Proof.
  intros H. induction H as [|v l l' H IH|v v0 l l' Hv H IH]; intros Hi; [destruct Hi| |].
  - destruct (IH Hi) as [w [A B]]. exists w. split; [right; exact A|exact B].
  - destruct Hi as [<-|Hi]; [exists v; split; [left; reflexivity|exact Hv]|]. destruct (IH Hi) as [w [A B]]. exists w. split; [right; exact A|exact B].
Qed.
Lemma trim_entries_in l l' e' : trim_entries l' l -> In e' l' -> exists e, In e l /\ trim (fst e') (fst e) /\ trim (snd e') (snd e).
Proof.
  intros H. induction H as [|k v l l' N H IH|k k0 v v0 l l' Hk Hv H IH]; intros Hi; [destruct Hi| |].
  - destruct (IH Hi) as [w [A B]]. exists w. split; [right; exact A|exact B].
  - destruct Hi as [<-|Hi]; [exists (k, v); split; [left; reflexivity|split; [exact Hk|exact Hv]]|]. destruct (IH Hi) as [w [A B]]. exists w. split; [right; exact A|exact B].
Qed.

Definition mono (G : node -> Prop) : Prop := forall m n, trim m n -> G n -> G m.
Definition mono_entry (G : node * node -> Prop) : Prop := forall k v k' v', trim k' k -> trim v' v -> G (k, v) -> G (k', v').

Lemma alike_denotes m n s : alike m n -> denotes_string n s -> denotes_string m s.
Proof. intros [A [B _]] [C D]. split; congruence. Qed.
Lemma alike_back m n : alike m n -> alike n m.
Proof. intros [A [B C]]. repeat split; congruence. Qed.
Lemma mono_string : mono a_string.
Proof. intros m n T [s D]. exists s. eapply alike_denotes; [apply trim_alike; exact T|exact D]. Qed.
Lemma mono_scalar (G : node -> Prop) : (forall n, G n -> exists t v, n = Scal t v) -> mono G.
Proof. intros H m n T g. destruct (H n g) as [t [v ->]]. inversion T; subst. exact g. Qed.
Lemma mono_anything : mono anything.
Proof. intros m n _ _. exact I. Qed.
Lemma mono_sequence G : mono G -> mono (sequence G).
Proof.
  intros H m n T [t [l [-> X]]]. inversion T as [|t0 l0 l' Ti|]; subst. exists t, l'. split; [reflexivity|]. intros v' Hv.
  destruct (trim_items_in _ _ _ Ti Hv) as [v [Hi Tv]]. eapply H; [exact Tv|]. apply X. exact Hi.
Qed.
Lemma mono_entries G : mono_entry G -> mono (entries G).
Proof.
  intros H m n T [t [l [-> X]]]. inversion T as [| |t0 l0 l' Ti]; subst. exists t, l'. split; [reflexivity|]. intros [k' v'] Hv.
  destruct (trim_entries_in _ _ _ Ti Hv) as [[k v] [Hi [Tk Tv]]]. eapply H; [exact Tk|exact Tv|]. apply X. exact Hi.
Qed.
Lemma mono_mapping G : mono G -> mono (mapping G).
Proof.
  intros H m n T [t [l [-> X]]]. inversion T as [| |t0 l0 l' Ti]; subst. exists t, l'. split; [reflexivity|]. intros [k' v'] Hv.
  destruct (trim_entries_in _ _ _ Ti Hv) as [[k v] [Hi [Tk Tv]]]. destruct (X _ Hi) as [A B]. cbn [fst snd] in *.
  split; [eapply mono_string; eassumption|eapply H; eassumption].
Qed.

Section Trim.
  Context {F : FloatIO}.

  Lemma mono_bool : mono a_bool.
  Proof. apply mono_scalar. intros n [b D]. apply denotes_bool_iff in D. destruct n; try discriminate D. eauto. Qed.
  Lemma mono_int : mono an_int.
  Proof. apply mono_scalar. intros n [b D]. apply denotes_int_iff in D. destruct n; try discriminate D. eauto. Qed.
  Lemma mono_float : mono a_float.
  Proof.
    apply mono_scalar. intros n H. apply float_verdict in H as [x D]. destruct n; try discriminate D. eauto.
  Qed.
  Lemma mono_key : mono a_key.
  Proof. apply mono_scalar. intros n [v [->|[->|[[-> _]|[[-> _]|[-> _]]]]]]; eauto. Qed.

  Lemma mono_example_value k : mono (example_value k).
  Proof.
    destruct k; cbn [example_value]; try exact mono_string; try exact mono_bool; try exact mono_int; try exact mono_float;
      try (apply mono_sequence, mono_anything); intros m n _ g; exact g.
  Qed.

  Lemma alike_annotation m n : alike m n -> is_annotation_key m = is_annotation_key n.
  Proof. intros A. unfold is_annotation_key. rewrite (alike_string _ _ A). destruct A as [_ [-> _]]. reflexivity. Qed.

  Lemma mono_example_entry k : mono_entry (example_entry k).
  Proof.
    intros key val key' val' Tk Tv H. pose proof (trim_alike _ _ Tk) as Ak. pose proof (alike_back _ _ Ak) as Ab.
    inversion H as [k0 v0 N A|k0 v0 N A|k0 v0 [N|N] A|k0 v0 N A|k0 v0 N A|k0 v0 s D A N1 N2 N3]; subst.
    - apply exe_other; [intros [s X]; apply N; exists s; eapply alike_denotes; eassumption|eapply mono_key; eassumption].
    - apply exe_annotation; [rewrite (alike_annotation _ _ Ak); exact N|eapply mono_mapping; [exact mono_anything|exact Tv|exact A]].
    - apply exe_text; [left; eapply alike_denotes; eassumption|eapply mono_string; eassumption].
    - apply exe_text; [right; eapply alike_denotes; eassumption|eapply mono_string; eassumption].
    - apply exe_strict; [eapply alike_denotes; eassumption|eapply mono_bool; eassumption].
    - apply exe_value; [eapply alike_denotes; eassumption|eapply mono_example_value; eassumption].
    - eapply exe_extra; [eapply alike_denotes; eassumption|eapply mono_key; eassumption|exact N1|rewrite (alike_annotation _ _ Ak); exact N2|exact N3].
  Qed.
  Lemma mono_example k : mono (example k).
  Proof.
    intros m n T H. destruct T as [t v|t l l' Ti|t l l' Ti]; [exact H| |].
    - eapply (mono_example_value k); [apply trim_sequence; exact Ti|exact H].
    - cbn [example] in *. intros [k' v'] Hi. destruct (trim_entries_in _ _ _ Ti Hi) as [[k0 v0] [Hj [Tk Tv]]]. eapply mono_example_entry; [exact Tk|exact Tv|].
      apply H. exact Hj.
  Qed.

  Lemma mono_xml_entry : mono_entry xml_entry.
  Proof.
    intros key val key' val' Tk Tv H. destruct (trim_alike _ _ Tk) as [_ [Av _]].
    inversion H as [k0 v0 N A|k0 v0 N A|k0 v0 N A]; subst.
    - apply xml_flag; [rewrite Av; exact N|eapply mono_bool; eassumption].
    - apply xml_text; [rewrite Av; exact N|eapply mono_string; eassumption].
    - apply xml_other; [rewrite Av; exact N|eapply mono_key; eassumption].
  Qed.

  Lemma mono_enum_element k : mono (enum_element k).
  Proof.
    intros m n T H. apply enum_elem_verdict in H as [x H]. apply enum_elem_verdict.
    destruct k; cbn [enum_elem] in *; try (eexists; reflexivity); apply bind_ok in H as [y [H _]];
      first [destruct (proj2 (proj1 (str_verdict m)) (mono_string m n T (proj1 (proj1 (str_verdict n)) (ex_intro _ y H)))) as [z Z]
            |destruct (proj2 (proj1 (bool_verdict m)) (mono_bool m n T (proj1 (proj1 (bool_verdict n)) (ex_intro _ y H)))) as [z Z]
            |destruct (proj2 (proj1 (int_verdict m)) (mono_int m n T (proj1 (proj1 (int_verdict n)) (ex_intro _ y H)))) as [z Z]
            |destruct (proj2 (proj1 (float_verdict m)) (mono_float m n T (proj1 (proj1 (float_verdict n)) (ex_intro _ y H)))) as [z Z]];
      rewrite Z; eexists; reflexivity.
  Qed.

  Lemma mono_plain k f : mono (plain_facet k f).
  Proof.
    destruct f; cbn [plain_facet]; try exact mono_string; try exact mono_bool; try exact mono_int; try exact mono_float;
      try (apply mono_sequence; first [exact mono_string|apply mono_enum_element]); try (apply mono_entries, mono_xml_entry);
      try (apply mono_mapping, mono_example); try (intros m n _ g; exact g);
      try (destruct k; first [exact mono_int|exact mono_float]).
    intros m n T [N H]. split; [exact N|]. eapply mono_example; eassumption.
  Qed.

  Lemma trim_no_type l l' : trim_entries l' l -> no_type_key l -> no_type_key l'.
  Proof.
    intros T N e' He. destruct (trim_entries_in _ _ _ T He) as [e [Hi [Tk _]]]. destruct (trim_alike _ _ Tk) as [_ [-> _]]. apply N. exact Hi.
  Qed.
  Lemma trim_mentions s l l' : In s deciding -> trim_entries l' l -> (mentions s l' <-> mentions s l).
  Proof.
    intros Hs T. split.
    - intros [e' [He E]]. destruct (trim_entries_in _ _ _ T He) as [e [Hi [Tk _]]]. exists e. split; [exact Hi|]. destruct (trim_alike _ _ Tk) as [_ [<- _]]. exact E.
    - intros [e [He E]]. induction T as [|k v l l' N T IH|k k0 v v0 l l' Hk Hv T IH]; [destruct He| |].
      + destruct He as [<-|He]; [cbn [fst] in E; subst s; contradiction|]. apply IH. exact He.
      + destruct He as [<-|He].
        * exists (k0, v0). split; [left; reflexivity|]. cbn [fst] in *. destruct (trim_alike _ _ Hk) as [_ [-> _]]. exact E.
        * destruct (IH He) as [e' [A B]]. exists e'. split; [right; exact A|exact B].
  Qed.
  (** The first type key stays the first type key. *)
  Lemma trim_first pre k v post l' : trim_entries l' (pre ++ (k, v) :: post) -> In (value k) deciding -> no_type_key pre ->
    exists pre' k' v' post', l' = pre' ++ (k', v') :: post' /\ no_type_key pre' /\ trim k' k /\ trim v' v.
  Proof.
    revert l'. induction pre as [|[ka va] pre IH]; intros l' T K N; cbn [app] in T.
    - inversion T as [|k0 v0 l0 l1 N0 T0|k0 k1 v0 v1 l0 l1 Tk Tv T0]; subst; [contradiction|]. exists [], k1, v1, l1. split; [reflexivity|].
      split; [intros e []|auto].
    - assert (N' : no_type_key pre) by (intros e He; apply N; right; exact He).
      inversion T as [|k0 v0 l0 l1 N0 T0|k0 k1 v0 v1 l0 l1 Tk Tv T0]; subst; [exact (IH _ T0 K N')|].
      destruct (IH _ T0 K N') as [pre' [k' [v' [post' [-> [A [B C]]]]]]]. exists ((k1, v1) :: pre'), k', v', post'. split; [reflexivity|]. split; [|auto].
      intros e [<-|He]; [|apply A; exact He]. cbn [fst]. destruct (trim_alike _ _ Tk) as [_ [-> _]]. apply (N (ka, va)). left. reflexivity.
  Qed.
  Lemma trim_classified l l' k : trim_entries l' l -> classified l k -> classified l' k.
  Proof.
    intros T C. destruct C as [pre kt vt post s kd N K D Nm|pre kt vt post N K Tn|l N M|l N M1 M2|l N M1 M2].
    - assert (Dk : In (value kt) deciding) by (destruct K as [->| ->]; cbn; tauto).
      destruct (trim_first _ _ _ _ _ T Dk N) as [pre' [k' [v' [post' [-> [A [B C]]]]]]]. destruct (trim_alike _ _ B) as [_ [Bv _]].
      eapply by_type; [exact A|rewrite Bv; exact K|eapply alike_denotes; [apply trim_alike; exact C|exact D]|exact Nm].
    - assert (Dk : In (value kt) deciding) by (destruct K as [->| ->]; cbn; tauto).
      destruct (trim_first _ _ _ _ _ T Dk N) as [pre' [k' [v' [post' [-> [A [B C]]]]]]]. destruct (trim_alike _ _ B) as [_ [Bv _]]. destruct (trim_alike _ _ C) as [Ct _].
      eapply by_include; [exact A|rewrite Bv; exact K|congruence].
    - apply by_properties; [eapply trim_no_type; eassumption|]. apply (trim_mentions "properties" l l'); [cbn; tauto|exact T|exact M].
    - apply by_items; [eapply trim_no_type; eassumption| |]; [intros X; apply M1; apply (trim_mentions "properties" l l'); [cbn; tauto|exact T|exact X]|].
      apply (trim_mentions "items" l l'); [cbn; tauto|exact T|exact M2].
    - apply by_default; [eapply trim_no_type; eassumption| |]; intros X; [apply M1; apply (trim_mentions "properties" l l')|apply M2; apply (trim_mentions "items" l l')];
        try (cbn; tauto); try exact T; exact X.
  Qed.
  Lemma trim_def_kind m n k : trim m n -> def_kind n k -> def_kind m k.
  Proof.
    intros T D. pose proof (trim_alike _ _ T) as A. inversion D as [n0 s k0 Dn Nm|v|t l k0 Ht C]; subst.
    - eapply kind_string; [eapply alike_denotes; eassumption|exact Nm].
    - inversion T; subst. apply kind_include.
    - inversion T as [| |t0 l0 l' Te]; subst. apply kind_map; [exact Ht|]. eapply trim_classified; eassumption.
  Qed.

  Theorem trim_loads n : forall m, trim m n -> loads n -> loads m.
  Proof.
    induction n as [n IH] using node_strong_ind. intros m T L. inversion L as [n0 St|v|t l k Ht C E]; subst.
    - apply loads_string. eapply mono_string; eassumption.
    - inversion T; subst. apply loads_include.
    - inversion T as [| |t0 l0 l' Te]; subst. eapply loads_map; [exact Ht|eapply trim_classified; eassumption|].
      intros [k' v'] Hi. destruct (trim_entries_in _ _ _ Te Hi) as [[ke ve] [Hj [Tk Tv]]]. cbn [fst snd] in *.
      assert (Sz : (node_size ve < node_size (Map t l))%nat) by (eapply size_map_val; exact Hj).
      specialize (E _ Hj). pose proof (trim_alike _ _ Tk) as Ak. pose proof Ak as [_ [Av _]].
      inversion E as [k0 key val K S|k0 key val f Fi Fk Pf|k0 key val Fi Fk Lv|k0 key t1 l1 Fi Fk Lp|k0 key t1 l1 Fi Fk Lp|k0 key val Fu An Mv|k0 key val Ex Nd]; subst.
      + apply entry_type; [rewrite Av; exact K|eapply mono_string; eassumption].
      + eapply entry_plain; [exact Fi|rewrite Av; exact Fk|eapply mono_plain; eassumption].
      + apply entry_items; [exact Fi|congruence|]. eapply IH; eassumption.
      + inversion Tv as [| |t2 l2 l1' Te1]; subst. apply entry_properties; [exact Fi|congruence|].
        intros [k2 v2] Hi2. destruct (trim_entries_in _ _ _ Te1 Hi2) as [[k3 v3] [Hj2 [Tk2 Tv2]]]. cbn [fst snd] in *. destruct (Lp _ Hj2) as [A [B [kd [D1 D2]]]]. cbn [fst snd] in *.
        split; [eapply mono_string; eassumption|]. split; [eapply IH; [|exact Tv2|exact B]; pose proof (size_map_val t1 l1 k3 v3 Hj2); lia|].
        exists kd. split; [eapply trim_def_kind; eassumption|exact D2].
      + inversion Tv as [| |t2 l2 l1' Te1]; subst. apply entry_facets; [exact Fi|congruence|].
        intros [k2 v2] Hi2. destruct (trim_entries_in _ _ _ Te1 Hi2) as [[k3 v3] [Hj2 [Tk2 Tv2]]]. cbn [fst snd] in *. destruct (Lp _ Hj2) as [A [t4 [l4 [B D]]]]. cbn [fst snd] in *.
        split; [eapply mono_string; eassumption|]. subst v3. inversion Tv2 as [| |t5 l5 l4' Te2]; subst. exists t4, l4'. split; [reflexivity|].
        intros [k6 v6] Hi6. destruct (trim_entries_in _ _ _ Te2 Hi6) as [[k7 v7] [Hj7 [Tk7 Tv7]]]. cbn [fst snd] in *. destruct (D _ Hj7) as [A7 L7]. cbn [fst snd] in *.
        split; [eapply mono_string; eassumption|]. eapply IH; [|exact Tv7|exact L7].
        pose proof (size_map_val t1 l1 k3 _ Hj2). pose proof (size_map_val t4 l4 k7 v7 Hj7). lia.
      + apply entry_annotation; [exact Fu|rewrite (alike_annotation _ _ Ak); exact An|eapply mono_mapping; [exact mono_anything|exact Tv|exact Mv]].
      + apply entry_extra.
        * rewrite <- Ex. unfold extra_key. rewrite Av, (alike_annotation _ _ Ak). reflexivity.
        * intros Fu X. apply (Nd Fu). eapply alike_denotes; [apply alike_back; exact Ak|exact X].
  Qed.
  Lemma mono_loads : mono loads.
  Proof. intros m n T L. eapply trim_loads; eassumption. Qed.

  Lemma mono_doc : mono (entries doc_entry).
  Proof.
    apply mono_entries. intros key val key' val' Tk Tv H. destruct (trim_alike _ _ Tk) as [_ [Av _]].
    inversion H; subst; [apply doc_text|apply doc_other]; rewrite ?Av; try assumption. eapply mono_key; eassumption.
  Qed.

  Lemma mono_api_value s G : api_value s = Some G -> mono G.
  Proof.
    unfold api_value, lookup. cbn [find fst].
    repeat (destruct (String.eqb _ _); [intros E; injection E as <-; try exact mono_string; try (apply mono_sequence; first [exact mono_string|exact mono_doc]);
      try (apply mono_mapping; first [exact mono_anything|exact mono_string|exact mono_loads])|]).
    all: try discriminate.
    intros m n T [H|H]; [left; eapply mono_string; eassumption|right; eapply mono_sequence; [exact mono_string|exact T|exact H]].
  Qed.
  Lemma mono_lib_value s G : lib_value s = Some G -> mono G.
  Proof.
    unfold lib_value, lookup. cbn [find fst].
    repeat (destruct (String.eqb _ _); [intros E; injection E as <-; try exact mono_string;
      try (apply mono_mapping; first [exact mono_anything|exact mono_string|exact mono_loads|apply mono_mapping, mono_anything])|]).
    discriminate.
  Qed.

  Lemma mono_api_entry : mono_entry api_entry.
  Proof.
    intros key val key' val' Tk Tv H. pose proof (trim_alike _ _ Tk) as Ak.
    inversion H as [k0 v0 s G D Av Gv|k0 v0 An Mv|k0 v0 r D|k0 v0 K N An]; subst.
    - eapply api_known; [eapply alike_denotes; eassumption|exact Av|eapply mono_api_value; eassumption].
    - apply api_annotation; [rewrite (alike_annotation _ _ Ak); exact An|eapply mono_mapping; [exact mono_anything|exact Tv|exact Mv]].
    - eapply api_resource. eapply alike_denotes; eassumption.
    - apply api_other; [eapply mono_key; eassumption| |rewrite (alike_annotation _ _ Ak); exact An].
      intros s X. apply N. eapply alike_denotes; [apply alike_back; exact Ak|exact X].
  Qed.
  Lemma mono_lib_entry : mono_entry lib_entry.
  Proof.
    intros key val key' val' Tk Tv H. pose proof (trim_alike _ _ Tk) as Ak. pose proof Ak as [_ [Av _]].
    inversion H as [k0 v0 G Lv Gv|k0 v0 An Mv|k0 v0 K N D An]; subst.
    - eapply lib_known; [rewrite Av; exact Lv|eapply mono_lib_value; eassumption].
    - apply lib_annotation; [rewrite (alike_annotation _ _ Ak); exact An|eapply mono_mapping; [exact mono_anything|exact Tv|exact Mv]].
    - apply lib_other; [eapply mono_key; eassumption|rewrite Av; exact N| |rewrite (alike_annotation _ _ Ak); exact An].
      intros X. apply D. eapply alike_denotes; [apply alike_back; exact Ak|exact X].
  Qed.

  Theorem trim_api m n : trim m n -> api_loads n -> api_loads m.
  Proof. apply mono_entries, mono_api_entry. Qed.
  Theorem trim_lib m n : trim m n -> lib_loads n -> lib_loads m.
  Proof. apply mono_entries, mono_lib_entry. Qed.

  Lemma some_in {A} (l l' : list A) a : some_of l' l -> In a l' -> In a l.
  Proof.
    intros H. induction H as [|x l l' H IH|x l l' H IH]; intros Hi; [exact Hi|right; auto|]. destruct Hi as [<-|Hi]; [left; reflexivity|right; auto].
  Qed.
  Theorem some_type t l l' d : some_of l' l -> hat (Map t l) = Ok d -> classified l' (d_kind d) -> exists d', hat (Map t l') = Ok d'.
  Proof.
    intros S H C. apply type_verdict. assert (L : loads (Map t l)) by (apply type_verdict; eauto). inversion L as [n0 St| |t0 l0 k Ht Ck E]; subst.
    - apply loads_string. destruct St as [s [A B]]. exists s. split; [exact A|exact B].
    - pose proof (expanded_kind _ _ _ Ht H) as Cd. rewrite (classified_fun _ _ _ Ck Cd) in E. eapply loads_map; [exact Ht|exact C|].
      intros e He. apply E. eapply some_in; eassumption.
  Qed.
  Theorem some_api t l l' : some_of l' l -> api_loads (Map t l) -> api_loads (Map t l').
  Proof. intros S [t0 [l0 [E X]]]. injection E as <- <-. exists t, l'. split; [reflexivity|]. intros e He. apply X. eapply some_in; eassumption. Qed.
  Theorem some_lib t l l' : some_of l' l -> lib_loads (Map t l) -> lib_loads (Map t l').
  Proof. intros S [t0 [l0 [E X]]]. injection E as <- <-. exists t, l'. split; [reflexivity|]. intros e He. apply X. eapply some_in; eassumption. Qed.
End Trim.
