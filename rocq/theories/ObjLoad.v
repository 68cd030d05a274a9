(** C79: what is read has each key of a map once. *)
From Coq Require Import SpecFloat.
From Verif Require Import Base Num OMap OMapSpec Keys Yaml Values Assign Formats Meta Out Xml Example DataType Marshal Doc Api Library
  AssignProofs TypeFacts Fields FieldProofs ReadInv WasRead Build Setters Live BuildSpec DeepMore Objects ObjProofs ObjHeap.

Section Load.
  Context {F : FloatIO}.

  Lemma once_bare t : parts t = [] -> Objects.once t.
  Proof. intros E. apply once_parts. rewrite E. split; [constructor|intros n q []]. Qed.
  Lemma once_keyed {V} (th : V -> thing) (t : thing) (m : amap string V) : parts t = keyed th m -> keys_once (fun v => Objects.once (th v)) m -> Objects.once t.
  Proof.
    intros E [N Q]. apply once_parts. rewrite E. unfold keyed. split.
    - rewrite map_map. cbn [fst]. rewrite <- (map_map fst NKey). clear -N. induction (map fst (ents m)) as [|k l IH]; [constructor|]. inversion N as [|? ? N1 N2]; subst. cbn [map]. constructor; [|exact (IH N2)]. intros H. apply in_map_iff in H as [k' [E H]]. injection E as ->. exact (N1 H).
    - intros n q H. apply in_map_iff in H as [[k v] [Eq H]]. cbn [fst snd] in Eq. injection Eq as _ <-. exact (Q k v H).
  Qed.
  Lemma once_weaken {V} (P Q : V -> Prop) (m : amap string V) : keys_once P m -> (forall v, P v -> Q v) -> keys_once Q m.
  Proof. intros [N A] H. split; [exact N|]. intros k v Hv. exact (H v (A k v Hv)). Qed.
  Lemma once_untyped m : Objects.once (ThUntyped m).
  Proof. apply once_bare. reflexivity. Qed.
  Lemma once_anns m : NoDup (map fst (ents m)) -> Objects.once (ThAnns m).
  Proof. intros N. apply (once_keyed ThUntyped (ThAnns m) m eq_refl). split; [exact N|]. intros k v _. apply once_untyped. Qed.

  Ltac names := repeat (constructor; [intros X; cbn in X; repeat destruct X as [X|X]; try discriminate X; destruct X|]); constructor.

  Lemma once_ex e : NoDup (map fst (ents (ex_anns e))) -> Objects.once (ThEx e).
  Proof.
    intros N. apply once_parts. split; [cbn [parts map fst]; names|]. intros n t [E|[E|[]]]; injection E as _ <-; [apply once_anns; exact N|apply once_bare; reflexivity].
  Qed.
  Lemma read_ex_anns k n e : read_ex k n = Ok e -> NoDup (map fst (ents (ex_anns e))).
  Proof.
    unfold read_ex, ex_unmarshal. destruct n as [t v|t l|t l].
    1,2: intros H; apply bind_ok in H as [w [_ H]]; injection H as <-; constructor.
    intros Hl. refine (fold_proper (ex_assign k) (fun e => NoDup (map fst (ents (ex_anns e)))) _ l new_ex e Hl _); [|constructor]. clear. intros s [a b] s' H N. unfold ex_assign in H. cbn [fst snd] in H. destruct (is_string a); cbn [negb] in H.
    2:{ apply bind_ok in H as [w [_ H]]. injection H as <-. exact N. }
    destruct (value a) as [|c r]; [discriminate H|]. repeat match type of H with (if ?b then _ else _) = _ => destruct b end; apply bind_ok in H as [w [Hw H]]; injection H as <-; try exact N.
    cbn [ex_anns]. exact (proj1 (once_put anything (String c r) w (ex_anns s) (conj N (fun k v _ => I)) I)).
  Qed.
  Lemma once_doc d : Objects.once (ThDoc d).
  Proof. apply once_parts. split; [cbn [parts map fst]; names|]. intros n t [E|[]]. injection E as _ <-. apply once_bare. reflexivity. Qed.
  Lemma once_docs l : Objects.once (ThDocs l).
  Proof.
    apply once_parts. cbn [parts]. split.
    - assert (A : forall l i, NoDup (map fst (indexed ThDoc i l)) /\ forall n, In n (map fst (indexed ThDoc i l)) -> exists j, n = NIndex j /\ i <= j).
      { clear. induction l as [|d l IH]; intros i; [split; [constructor|intros n []]|]. cbn [indexed map fst]. destruct (IH (S i)) as [N B]. split.
        - constructor; [|exact N]. intros X. apply B in X as [j [E L]]. injection E as <-. lia.
        - intros n [<-|H]; [exists i; split; [reflexivity|lia]|]. apply B in H as [j [E L]]. exists j. split; [exact E|lia]. }
      exact (proj1 (A l 0)).
    - generalize 0 as i. induction l as [|d l IH]; intros i n t H; [destruct H|]. destruct H as [E|H]; [injection E as _ <-; apply once_doc|exact (IH (S i) n t H)].
  Qed.

  Lemma hat_once n : forall d, hat n = Ok d -> Objects.once (ThDef d).
  Proof.
    induction n as [n IH] using node_strong_ind. intros d H. pose proof (hat_read n d H) as R.
    assert (I' : forall t, (exists n', node_size n' < node_size n /\ hat n' = Ok t) -> Objects.once (ThDef t)) by (intros t [n' [Hn Ht]]; exact (IH n' Hn t Ht)).
    destruct d as [b|b x fs c s]; apply once_parts.
    - split; [cbn [parts map fst]; names|]. intros m t [E|[]]. injection E as _ <-. apply once_bare. reflexivity.
    - split; [cbn [parts spec_parts]; destruct s; cbn [spec_parts app map fst]; names|]. intros m t Hin. cbn [parts] in Hin. apply in_app_or in Hin as [Hin|Hin].
      + repeat destruct Hin as [E|Hin]; try contradiction.
        * injection E as _ <-. apply once_bare. reflexivity.
        * injection E as _ <-. destruct (R FAnns (VAnns (x_anns x)) eq_refl) as [_ [N _]]. apply once_anns. exact N.
        * destruct (x_xml x); [|discriminate E]. injection E as _ <-. apply once_bare. reflexivity.
        * injection E as _ <-. destruct (R FFacets (VFacets fs) eq_refl) as [_ [N Q]]. apply (once_keyed ThDefs (ThFacets fs) fs eq_refl). split; [exact N|]. intros k v Hv. destruct (Q k v Hv) as [_ [N' Q']]. apply (once_keyed ThDef (ThDefs v) v eq_refl). split; [exact N'|]. intros k' v' Hv'. exact (I' v' (Q' k' v' Hv')).
        * destruct (c_example c) as [e|] eqn:Ee; [|discriminate E]. injection E as _ <-. pose proof (R FExample (VEx (c_example c)) eq_refl) as Q. rewrite Ee in Q. destruct Q as [_ [n' Hn]]. apply once_ex. exact (read_ex_anns _ n' e Hn).
        * injection E as _ <-. destruct (R FExamples (VExs (c_examples c)) eq_refl) as [_ [N Q]]. apply (once_keyed ThEx (ThExs (c_examples c)) (c_examples c) eq_refl). split; [exact N|]. intros k v Hv. destruct (Q k v Hv) as [n' Hn]. apply once_ex. exact (read_ex_anns _ n' v Hn).
      + destruct s as [|u mn mx it|fm|ft mn mx|fm mn mx mu|fm mn mx mu|ps mn mx ad di dv|p mn mx]; cbn [spec_parts] in Hin; try contradiction; destruct Hin as [E|[]].
        * destruct it as [d|]; [|discriminate E]. injection E as _ <-. apply I'. exact (R FItems (VOptType (Some d)) eq_refl).
        * injection E as _ <-. destruct (R FProps (VTypes ps) eq_refl) as [_ [N Q]]. apply (once_keyed ThDef (ThDefs ps) ps eq_refl). split; [exact N|]. intros k v Hv. exact (I' v (proj1 (Q k v Hv))).
  Qed.
  Lemma types_once (m : amap string dtype) : keys_once loaded_type m -> Objects.once (ThDefs m).
  Proof. intros H. apply (once_keyed ThDef (ThDefs m) m eq_refl). apply (once_weaken loaded_type); [exact H|]. intros v [n Hn]. exact (hat_once n v Hn). Qed.

  Lemma api_loaded n a : api_unmarshal n new_api = Ok a -> Objects.once (ThApi a).
  Proof.
    unfold api_unmarshal, map_fold. destruct n as [t v|t l|t l]; try discriminate. intros H.
    assert (O : api_once a) by (apply (fold_proper api_assign api_once api_assign_once l new_api a H); unfold api_once; repeat (split; [apply once_new|]); reflexivity).
    destruct O as (_ & _ & _ & _ & _ & _ & _ & An & Ty & _). apply once_parts. split; [cbn [parts map fst]; names|]. intros m q Hin. cbn [parts] in Hin.
    repeat destruct Hin as [E|Hin]; try contradiction; try (injection E as _ <-; apply once_bare; reflexivity); try (injection E as _ <-; exact (types_once _ Ty)); try (injection E as _ <-; exact (once_anns _ (proj1 An))).
    destruct (a_documentation a) as [dl|]; [|discriminate E]. injection E as _ <-. apply once_docs.
  Qed.
  Lemma lib_loaded n a : lib_unmarshal n new_library = Ok a -> Objects.once (ThLib a).
  Proof.
    unfold lib_unmarshal, map_fold. destruct n as [t v|t l|t l]; try discriminate. intros H.
    assert (O : lib_once a) by (apply (fold_proper lib_assign lib_once lib_assign_once l new_library a H); unfold lib_once; repeat (split; [apply once_new|]); reflexivity).
    destruct O as (_ & _ & _ & _ & _ & An & Ty & _). apply once_parts. split; [cbn [parts map fst]; names|]. intros m q Hin. cbn [parts] in Hin.
    repeat destruct Hin as [E|Hin]; try contradiction; injection E as _ <-; try (apply once_bare; reflexivity); try exact (types_once _ Ty); exact (once_anns _ (proj1 An)).
  Qed.
End Load.

(** What is made with New... *)
Lemma new_once k : Objects.once (ThDef (new_type k)).
Proof.
  apply once_parts. destruct k; (split; [cbn; repeat (constructor; [intros X; cbn in X; repeat destruct X as [X|X]; try discriminate X; destruct X|]); constructor|]);
    intros n t H; cbn in H; repeat destruct H as [E|H]; try contradiction; try discriminate E; injection E as _ <-; apply once_bare; reflexivity.
Qed.
Lemma new_docs_once : Objects.once (ThApi new_api) /\ Objects.once (ThLib new_library) /\ Objects.once (ThEx new_ex).
Proof.
  split; [|split]; apply once_parts; (split; [cbn; repeat (constructor; [intros X; cbn in X; repeat destruct X as [X|X]; try discriminate X; destruct X|]); constructor|]);
    intros n t H; cbn in H; repeat destruct H as [E|H]; try contradiction; try discriminate E; injection E as _ <-; apply once_bare; reflexivity.
Qed.
