(** C30: what was read can be written. *)
From Coq Require Import SpecFloat.
From Verif Require Import Base Num OMap OMapSpec Keys Yaml Values Assign Formats Meta Out Xml Example DataType Marshal
  AssignProofs TypeFacts Fields FieldProofs FacetSpec FacetProofs DocProofs OrderProofs PathProofs TypeWrite Segs ExProofs Same ExRound TypeSegs WriteSpec WriteProofs
  ReadInv RoundSpec WasRead.

Section Writable.
  Context {F : FloatIO}.

  (** ** Examples *)

  Definition ex_extra_read (a : gkey) (g : gval) : Prop := (exists n, to_scalar n = Ok a) /\ is_node g.

  Definition ex_read (k : dkind) (e : ex) : Prop :=
    (forall v, ex_value e = Some v -> exists n, ex_val k n = Ok v) /\
    map_read false (fun s a => starts_paren s = true /\ ann_read a) (ex_anns e) /\
    oord (ex_extra e) = false /\ apart (map fst (ents (ex_extra e))) = true /\
    (forall a g, In (a, g) (ents (ex_extra e)) -> ex_extra_read a g).

  Lemma kput_apart {V} k (v : V) m : apart (map fst (ents m)) = true -> apart (map fst (ents (kput k v m))) = true.
  Proof.
    intros Ha. unfold kput, sput, sdelete. cbn [ents]. rewrite map_app. apply apart_app. split; [|split; [reflexivity|]].
    - induction (ents m) as [|x r IHr]; [reflexivity|]. cbn in *. apply andb_true_iff in Ha as [A1 A2].
      destruct (other gkey_eqb k x); cbn; [|auto]. rewrite IHr by exact A2. rewrite andb_true_r.
      rewrite forallb_forall in *. intros y Hy. apply A1. apply in_map_iff in Hy as [z [<- Hz]]. apply filter_In in Hz as [Hz _]. apply in_map. exact Hz.
    - intros a b0 Ha0 [<-|[]]. apply in_map_iff in Ha0 as [x [<- Hx]]. apply filter_In in Hx as [_ Hx]. unfold other in Hx.
      apply negb_true_iff. exact Hx.
  Qed.

  Lemma ex_set_extra_read k e a n v : to_scalar n = Ok a -> ex_read k e -> ex_read k (ex_set_extra e a v).
  Proof.
    intros Ha [H1 [H2 [H3 [H4 H5]]]]. unfold ex_read, ex_set_extra. cbn [ex_value ex_anns ex_extra].
    split; [exact H1|]. split; [exact H2|]. split; [exact H3|]. split; [apply kput_apart; exact H4|].
    intros b g Hi. cbn in Hi. unfold sput, sdelete in Hi. apply in_app_or in Hi as [Hi|[Hi|[]]]; [apply filter_In in Hi as [Hi _]; auto|].
    injection Hi as <- <-. split; [eauto|eexists; reflexivity].
  Qed.

  Lemma ex_assign_read k e p e' : ex_assign k e p = Ok e' -> ex_read k e -> ex_read k e'.
  Proof.
    intros H He. unfold ex_assign in H. destruct (negb (is_string (fst p))).
    { apply bind_ok in H as [a [Ha H]]. injection H as <-. eapply ex_set_extra_read; eassumption. }
    destruct (value (fst p)) as [|c r] eqn:Ev; [discriminate H|]. destruct (Ascii.eqb c "(") eqn:Ec.
    { apply bind_ok in H as [a [Ha H]]. injection H as <-. destruct He as [H1 [H2 H3]]. split; [exact H1|]. split; [|exact H3].
      apply map_read_put; [exact H2|]. split; [cbn; exact Ec|eapply annotation_read; exact Ha]. }
    repeat match type of H with (if ?c then _ else _) = _ => destruct c end;
      apply bind_ok in H as [a [Ha H]]; injection H as <-; try (destruct He as [H1 H2]; split; [exact H1|exact H2]).
    - destruct He as [H1 H2]. split; [|exact H2]. intros v E. cbn in E. injection E as <-. eauto.
    - eapply ex_set_extra_read; eassumption.
  Qed.

  Lemma new_ex_read k : ex_read k new_ex.
  Proof. split; [discriminate|]. split; [apply map_read_new|]. repeat split; match goal with H : In _ _ |- _ => destruct H end. Qed.

  Lemma read_ex_read k n e : read_ex k n = Ok e -> ex_read k e.
  Proof.
    unfold read_ex, ex_unmarshal. destruct n as [t v|t l|t l]; intros H.
    - apply bind_ok in H as [g [Hg H]]. injection H as <-. destruct (new_ex_read k) as [_ H2]. split; [|exact H2]. intros v0 E. injection E as <-. eauto.
    - apply bind_ok in H as [g [Hg H]]. injection H as <-. destruct (new_ex_read k) as [_ H2]. split; [|exact H2]. intros v0 E. injection E as <-. eauto.
    - revert H. generalize (new_ex_read k). generalize new_ex. induction l as [|p l IH]; intros e0 H0 H; [injection H as <-; exact H0|].
      cbn in H. apply bind_ok in H as [e1 [H1 H]]. apply (IH e1); [eapply ex_assign_read; eassumption|exact H].
  Qed.

  (** ** Writing *)

  Definition writes (e : gkey * res node) : Prop := (exists n, key_node (fst e) = Ok n) /\ exists n, snd e = Ok n.

  Lemma puts_writes l : forall o, Forall writes l -> Forall writes o -> Forall writes (puts_all l o).
  Proof.
    induction l as [|e l IH]; intros o Hl Ho; [exact Ho|]. inversion Hl as [|x y H1 H2]; subst. cbn. apply IH; [exact H2|].
    unfold oput, sput, sdelete. apply Forall_app. split; [|constructor; [exact H1|constructor]].
    apply Forall_forall. intros x Hx. apply filter_In in Hx as [Hx _]. rewrite Forall_forall in Ho. auto.
  Qed.

  Lemma out_writes o : Forall writes o -> exists n, out_to_yaml o = Ok n.
  Proof. intros H. apply write_total. intros k r Hi. rewrite Forall_forall in H. exact (H _ Hi). Qed.

  Lemma opt_writes k r : (forall x, r = Some x -> exists n, x = Ok n) -> Forall writes (opt_seg k r).
  Proof. intros H. destruct r as [r|]; [|constructor]. constructor; [|constructor]. split; [eexists; reflexivity|exact (H r eq_refl)]. Qed.

  Lemma if_writes (c : bool) k r : (exists n, r = Ok n) -> Forall writes (if_seg c k r).
  Proof. intros H. destruct c; [|constructor]. constructor; [|constructor]. split; [eexists; reflexivity|exact H]. Qed.

  Lemma ann_writes a : ann_read a -> exists n, untyped_to_yaml a = Ok n.
  Proof.
    intros [_ [_ H]]. apply write_total. intros k v Hi. split; [eexists; reflexivity|]. destruct (H k v Hi) as [n ->]. exists n. reflexivity.
  Qed.

  Lemma map_writes {V} b Q (vn : V -> res node) (m : amap string V) : map_read b Q m -> (forall k v, Q k v -> exists n, vn v = Ok n) ->
    exists n, map_to_yaml skey_node vn m = Ok n.
  Proof. intros [_ [_ H]] Hq. apply write_total. intros k v Hi. split; [eexists; reflexivity|]. exact (Hq k v (H k v Hi)). Qed.

  Lemma all_ann_writes b (m : amap string untyped) : map_read b (fun s a => starts_paren s = true /\ ann_read a) m ->
    Forall writes (all_seg KStr untyped_to_yaml (ents m)).
  Proof.
    intros [_ [_ H]]. apply Forall_forall. intros e He. apply in_map_iff in He as [[s a] [<- Hi]].
    split; [eexists; reflexivity|]. apply ann_writes. exact (proj2 (H s a Hi)).
  Qed.

  Lemma value_writes k n v : ex_val k n = Ok v -> exists n', to_node v = Ok n'.
  Proof.
    destruct k; cbn; intros H; try discriminate H; try (apply bind_ok in H as [x [_ H]]); try (injection H as <-; eexists; reflexivity).
    destruct n as [t s|t l|t l]; try discriminate H. injection H as <-. cbn. rewrite map_res_map. cbn.
    rewrite (map_res_total _ _ (fun n => Ok n) (fun n => n)) by reflexivity. eexists. reflexivity.
  Qed.

  Lemma enum_writes k n v : enum_elem k n = Ok v -> exists n', to_node v = Ok n'.
  Proof. destruct k; cbn; intros H; try (apply bind_ok in H as [x [_ H]]); injection H as <-; eexists; reflexivity. Qed.

  Lemma key_writes n k : to_scalar n = Ok k -> exists n', key_node k = Ok n'.
  Proof. intros H. pose proof (to_scalar_hashable _ _ H) as U. destruct k; try (eexists; reflexivity). destruct (U n0 eq_refl). Qed.

  Lemma ex_writes k e : ex_read k e -> exists n, ex_to_yaml e = Ok n.
  Proof.
    intros [H1 [H2 [H3 [H4 H5]]]]. unfold ex_to_yaml.
    assert (Hv : exists n, opt_node (ex_value e) = Ok n).
    { destruct (ex_value e) as [v|]; [|eexists; reflexivity]. destruct (H1 v eq_refl) as [n Hn]. eapply value_writes. exact Hn. }
    destruct (ex_expand e) eqn:Ex.
    - rewrite ex_marshal_segs by exact Ex. apply out_writes, puts_writes; [|constructor]. unfold ex_segs.
      rewrite !Forall_app. split; [|split; [|split; [|split; [|split]]]].
      + apply opt_writes. destruct (ex_display e); intros x E; [injection E as <-; eexists; reflexivity|discriminate].
      + apply opt_writes. destruct (ex_descr e); intros x E; [injection E as <-; eexists; reflexivity|discriminate].
      + apply opt_writes. destruct (ex_value e); intros x E; [injection E as <-; exact Hv|discriminate].
      + apply if_writes. eexists; reflexivity.
      + eapply all_ann_writes. exact H2.
      + apply Forall_forall. intros x Hx. apply in_map_iff in Hx as [[a g] [<- Hi]]. destruct (H5 a g Hi) as [[n Hn] [m ->]].
        split; [eapply key_writes; exact Hn|exists m; reflexivity].
    - unfold ex_marshal. rewrite Ex. cbn [fst]. apply out_writes. constructor; [|constructor]. split; [eexists; reflexivity|exact Hv].
  Qed.

  (** ** Types *)

  Lemma map_res_total_ex {A B} (f : A -> res B) l : (forall a, In a l -> exists b, f a = Ok b) -> exists r, map_res f l = Ok r.
  Proof.
    induction l as [|a l IH]; intros H; [exists []; reflexivity|]. destruct (H a (or_introl eq_refl)) as [b Hb].
    destruct IH as [r Hr]; [intros; apply H; right; assumption|]. exists (b :: r). cbn. rewrite Hb. cbn. rewrite Hr. reflexivity.
  Qed.

  Lemma written_ok (P : dtype -> Prop) k f v r : (forall t, P t -> exists n, to_yaml t = Ok n) ->
    field_read P k f v -> written to_yaml k f v = Some r -> exists n, r = Ok n.
  Proof.
    intros HP Hr H. destruct v; cbn [written] in H; cbn [field_read] in Hr;
      try (destruct o as [o|]; [|discriminate H]; injection H as <-);
      try (match type of H with (if ?c then _ else _) = _ => destruct c; [try discriminate H|try discriminate H] end; injection H as <-);
      try (injection H as <-); try discriminate H; try (eexists; reflexivity).
    - destruct Hr as [_ [n ->]]. exists n. reflexivity.
    - destruct Hr as [_ Hr]. cbn [to_node]. destruct (map_res_total_ex to_node o) as [ns Hns].
      + intros g Hg. destruct (Hr g Hg) as [n Hn]. eapply enum_writes. exact Hn.
      + rewrite Hns. eexists; reflexivity.
    - apply HP. exact Hr.
    - eapply map_writes; [exact Hr|]. intros s t [Ht _]. apply HP. exact Ht.
    - eapply map_writes; [exact Hr|]. intros s m' Hm. eapply map_writes; [exact Hm|]. intros s' t Ht. apply HP. exact Ht.
    - destruct Hr as [_ [n Hn]]. apply (ex_writes k). eapply read_ex_read. exact Hn.
    - eapply map_writes; [exact Hr|]. intros s e [n Hn]. apply (ex_writes k). eapply read_ex_read. exact Hn.
  Qed.

  Lemma field_writes (P : dtype -> Prop) d f : (forall t, P t -> exists n, to_yaml t = Ok n) ->
    (forall v, getf f d = Some v -> field_read P (d_kind d) f v) -> Forall writes (field_segs to_yaml d f).
  Proof.
    intros HP Hr. unfold field_segs. destruct (getf f d) as [v|]; [|constructor]. specialize (Hr v eq_refl).
    pose proof (fun r => written_ok P (d_kind d) f v r HP Hr) as W.
    destruct v; try (apply opt_writes; exact W).
    - eapply all_ann_writes. exact Hr.
    - apply Forall_forall. intros x Hx. apply in_map_iff in Hx as [[a g] [<- Hi]]. destruct Hr as [_ Hr]. destruct (Hr a g Hi) as [[s ->] [mm ->]].
      split; [eexists; reflexivity|exists mm; reflexivity].
  Qed.

  (** C30 for type definitions *)
  Lemma read_writes n d : hat n = Ok d -> exists n', to_yaml d = Ok n'.
  Proof.
    revert d. induction n as [n IH] using node_strong_ind. intros d H. pose proof (hat_shaped n d H) as Hs.
    pose proof (hat_read n d H) as R.
    assert (W : Forall writes (puts_all (segs to_yaml d) [])).
    { apply puts_writes; [|constructor]. rewrite segs_fields by exact Hs. apply Forall_flat_map. apply Forall_forall. intros f _.
      eapply field_writes; [|exact (R f)]. intros t [n' [Hsz Ht]]. exact (IH n' Hsz t Ht). }
    rewrite to_yaml_eq. unfold to_yaml_body, short_or_full. rewrite type_marshal_segs.
    - destruct (is_short (puts_all (segs to_yaml d) [])) eqn:E.
      + destruct (sget gkey_eqb (KStr "type") (puts_all (segs to_yaml d) [])) as [r|] eqn:G; [|eexists; reflexivity].
        assert (Hi : exists k, In (k, r) (puts_all (segs to_yaml d) [])).
        { clear -G. unfold sget in G. destruct (find _ _) as [[k r']|] eqn:Ef; [|discriminate G]. injection G as <-. apply find_some in Ef as [Ef _]. eauto. }
        destruct Hi as [k Hi]. rewrite Forall_forall in W. destruct (W _ Hi) as [_ [m Hm]]. cbn in Hm. subst r. eauto.
      + apply out_writes. exact W.
    - destruct d as [b|b x fs c s]; [right; eauto|left]. apply (shaped_cases b x fs c s Hs).
  Qed.
End Writable.
