(** C77: objects that are saved alike answer alike. *)
From Coq Require Import SpecFloat.
From Verif Require Import Base Num OMap OMapSpec Keys Yaml Values Assign Formats Meta Out Xml Example DataType Marshal Doc Api Library
  AssignProofs TypeFacts Fields FacetSpec Segs ExProofs Same ExRound WriteSpec RoundSpec RoundProofs Stable ApiFields ApiSpec ApiProofs LibProofs ApiRoundSpec
  Live LiveSpec LiveSaveSpec LiveSave Exact ApiExact IdemSpec.

(** ** Being the same is symmetric and transitive *)

Definition symmetric_at {A} (R : A -> A -> Prop) (a : A) : Prop := forall b, R a b -> R b a.
Definition transitive_at {A} (R : A -> A -> Prop) (a : A) : Prop := forall b c, R a b -> R b c -> R a c.

Lemma forall2_sym {A} (R : A -> A -> Prop) l : Forall (symmetric_at R) l -> symmetric_at (Forall2 R) l.
Proof.
  intros H l' F. revert H. induction F as [|a b l l' Hab F IH]; intros H; [constructor|]. inversion H as [|? ? H1 H2]; subst. constructor; [exact (H1 b Hab)|exact (IH H2)].
Qed.
Lemma forall2_trans {A} (R : A -> A -> Prop) l : Forall (transitive_at R) l -> transitive_at (Forall2 R) l.
Proof.
  intros H l' l'' F. revert l'' H. induction F as [|a b l l' Hab F IH]; intros l'' H G; [inversion G; constructor|]. inversion H as [|? ? H1 H2]; subst.
  inversion G as [|? c ? m Hbc G']; subst. constructor; [exact (H1 b c Hab Hbc)|exact (IH m H2 G')].
Qed.
Lemma forall_all {A} (P : A -> Prop) l : (forall a, P a) -> Forall P l.
Proof. intros H. apply Forall_forall. intros a _. apply H. Qed.

Lemma entry_sym {K V} (R : V -> V -> Prop) (e : K * V) : symmetric_at R (snd e) -> symmetric_at (same_entry R) e.
Proof. intros H e' [E1 E2]. split; [symmetry; exact E1|exact (H _ E2)]. Qed.
Lemma entry_trans {K V} (R : V -> V -> Prop) (e : K * V) : transitive_at R (snd e) -> transitive_at (same_entry R) e.
Proof. intros H e' e'' [E1 E2] [F1 F2]. split; [congruence|exact (H _ _ E2 F2)]. Qed.
Lemma map_sym {K V} (R : V -> V -> Prop) (m : amap K V) : Forall (fun e => symmetric_at R (snd e)) (ents m) -> symmetric_at (same_map R) m.
Proof. intros H m'. apply forall2_sym. revert H. apply Forall_impl. intros e. apply entry_sym. Qed.
Lemma map_trans {K V} (R : V -> V -> Prop) (m : amap K V) : Forall (fun e => transitive_at R (snd e)) (ents m) -> transitive_at (same_map R) m.
Proof. intros H m' m''. apply forall2_trans. revert H. apply Forall_impl. intros e. apply entry_trans. Qed.

Lemma opt_sym {A} (R : A -> A -> Prop) o : (forall a, symmetric_at R a) -> symmetric_at (same_opt R) o.
Proof. intros H [b|]; destruct o as [a|]; cbn [same_opt]; auto. apply H. Qed.
Lemma opt_trans {A} (R : A -> A -> Prop) o : (forall a, transitive_at R a) -> transitive_at (same_opt R) o.
Proof. intros H [b|] [c|]; destruct o as [a|]; cbn [same_opt]; try tauto. apply H. Qed.

Section Faithful.
  Context {F : FloatIO}.

  Lemma value_sym v : symmetric_at same_value v.
  Proof. intros w [n [H1 H2]]. exists n. auto. Qed.
  Lemma value_trans v : transitive_at same_value v.
  Proof. intros w u [n [H1 H2]] [n' [H3 H4]]. exists n. split; [exact H1|congruence]. Qed.
  Lemma of_sym k v : symmetric_at (same_of k) v.
  Proof. intros w. destruct k; cbn [same_of]; try (intros H; symmetry; exact H); apply value_sym. Qed.
  Lemma of_trans k v : transitive_at (same_of k) v.
  Proof. intros w u. destruct k; cbn [same_of]; try congruence; apply value_trans. Qed.
  Lemma values_sym {K} (m : amap K gval) : symmetric_at (same_map same_value) m.
  Proof. apply map_sym, forall_all. intros e. apply value_sym. Qed.
  Lemma values_trans {K} (m : amap K gval) : transitive_at (same_map same_value) m.
  Proof. apply map_trans, forall_all. intros e. apply value_trans. Qed.
  Lemma anns_sym {K K'} (m : amap K (amap K' gval)) : symmetric_at (same_map (same_map same_value)) m.
  Proof. apply map_sym, forall_all. intros e. apply values_sym. Qed.
  Lemma anns_trans {K K'} (m : amap K (amap K' gval)) : transitive_at (same_map (same_map same_value)) m.
  Proof. apply map_trans, forall_all. intros e. apply values_trans. Qed.
  Lemma ex_sym k e : symmetric_at (same_ex k) e.
  Proof.
    intros e' (H1 & H2 & H3 & H4 & H5 & H6). repeat split; try congruence.
    - exact (opt_sym _ _ (of_sym k) _ H4).
    - exact (anns_sym _ _ H5).
    - exact (values_sym _ _ H6).
  Qed.
  Lemma ex_trans k e : transitive_at (same_ex k) e.
  Proof.
    intros e' e'' (H1 & H2 & H3 & H4 & H5 & H6) (G1 & G2 & G3 & G4 & G5 & G6). repeat split; try congruence.
    - exact (opt_trans _ _ (of_trans k) _ _ H4 G4).
    - exact (anns_trans _ _ _ H5 G5).
    - exact (values_trans _ _ _ H6 G6).
  Qed.

  (** Induction over what the getters answer. *)
  Definition inner (P : dtype -> Prop) (v : fval) : Prop :=
    match v with
    | VOptType (Some t) => P t
    | VTypes m => Forall (fun e => P (snd e)) (ents m)
    | VFacets m => facets_all P m
    | _ => True
    end.
  Lemma getters_ind (P : dtype -> Prop) : (forall d, (forall f v, getf f d = Some v -> inner P v) -> P d) -> forall d, P d.
  Proof.
    intros H d. induction d as [b|b x fs c s Hf Hs] using dtype_ind'; apply H; intros f v G.
    - destruct f; try discriminate G; injection G as <-; exact I.
    - destruct f; try (cbn [getf] in G; injection G as <-; first [exact I|exact Hf]);
        destruct s as [|u mn mx [t|]|fm|ft mn mx|fm mn mx mu|fm mn mx mu|ps mn mx ad di dv|p mn mx]; try discriminate G; injection G as <-; first [exact I|exact Hs].
  Qed.

  Lemma fval_sym k v : inner (symmetric_at same_type) v -> symmetric_at (same_fval same_type k) v.
  Proof.
    intros Hi w H. destruct H as [v|a b H|a b H|a b H|m m' H|m m' H|m m' H|a b H|m m' H|m m' H]; cbn [inner] in Hi.
    - apply same_equal.
    - apply same_val, value_sym, H.
    - apply same_vals. exact (forall2_sym _ _ (forall_all _ _ (of_sym k)) _ H).
    - apply same_item, Hi, H.
    - apply same_types. apply (forall2_sym (same_entry same_type)); [|exact H]. revert Hi. apply Forall_impl. intros e. apply entry_sym.
    - apply same_facets. apply (forall2_sym (same_entry (same_map same_type))); [|exact H]. revert Hi. apply Forall_impl. intros e He. apply entry_sym, map_sym, He.
    - apply same_anns, anns_sym, H.
    - apply same_one_ex, ex_sym, H.
    - apply same_exs. exact (map_sym _ _ (forall_all _ _ (fun e => ex_sym k (snd e))) _ H).
    - apply same_extra, values_sym, H.
  Qed.
  Lemma fval_trans k v : inner (transitive_at same_type) v -> transitive_at (same_fval same_type k) v.
  Proof.
    intros Hi w u H G. destruct H as [v|a b H|a b H|a b H|m m' H|m m' H|m m' H|a b H|m m' H|m m' H]; cbn [inner] in Hi; [exact G|..]; inversion G as [|x y G'|x y G'|x y G'|x y G'|x y G'|x y G'|x y G'|x y G'|x y G']; subst.
    - apply same_val, H.
    - apply same_val. exact (value_trans _ _ _ H G').
    - apply same_vals, H.
    - apply same_vals. exact (forall2_trans _ _ (forall_all _ _ (of_trans k)) _ _ H G').
    - apply same_item, H.
    - apply same_item. exact (Hi _ _ H G').
    - apply same_types, H.
    - apply same_types. refine (forall2_trans (same_entry same_type) _ _ _ _ H G'). revert Hi. apply Forall_impl. intros e. apply entry_trans.
    - apply same_facets, H.
    - apply same_facets. refine (forall2_trans (same_entry (same_map same_type)) _ _ _ _ H G'). revert Hi. apply Forall_impl. intros e He. apply entry_trans, map_trans, He.
    - apply same_anns, H.
    - apply same_anns. exact (anns_trans _ _ _ H G').
    - apply same_one_ex, H.
    - apply same_one_ex. exact (ex_trans k _ _ _ H G').
    - apply same_exs, H.
    - apply same_exs. exact (map_trans _ _ (forall_all _ _ (fun e => ex_trans k (snd e))) _ _ H G').
    - apply same_extra, H.
    - apply same_extra. exact (values_trans _ _ _ H G').
  Qed.

  Lemma type_sym d : symmetric_at same_type d.
  Proof.
    induction d as [d IH] using getters_ind. intros d' H. inversion H as [? ? K S N]; subst. constructor; [symmetry; exact K| |].
    - intros f w G. destruct (getf f d) as [v|] eqn:E; [|rewrite (N f E) in G; discriminate]. exists v. split; [reflexivity|]. destruct (S f v E) as [w' [Gw R]].
      rewrite G in Gw. injection Gw as <-. rewrite <- K. exact (fval_sym _ v (IH f v E) w R).
    - intros f G. destruct (getf f d) as [v|] eqn:E; [|reflexivity]. destruct (S f v E) as [w [Gw _]]. congruence.
  Qed.
  Lemma type_trans d : transitive_at same_type d.
  Proof.
    induction d as [d IH] using getters_ind. intros d1 d2 H G. inversion H as [? ? K S N]; subst. inversion G as [? ? K' S' N']; subst. constructor; [congruence| |].
    - intros f v E. destruct (S f v E) as [w [Ew R]]. destruct (S' f w Ew) as [u [Eu R']]. exists u. split; [exact Eu|]. rewrite <- K in R'. exact (fval_trans _ v (IH f v E) w u R R').
    - intros f E. exact (N' f (N f E)).
  Qed.

  Lemma api_sym a : symmetric_at same_api a.
  Proof.
    intros b H f. specialize (H f). destruct f; cbn [same_afield aget] in *; try (symmetry; exact H); try exact (values_sym _ _ H).
    all: first [exact (map_sym _ _ (forall_all _ _ (fun e x E => eq_sym E)) _ H)|exact (map_sym _ _ (forall_all _ _ (fun e => type_sym (snd e))) _ H)|exact (anns_sym _ _ H)].
  Qed.
  Lemma api_trans a : transitive_at same_api a.
  Proof.
    intros b c H G f. specialize (H f). specialize (G f). destruct f; cbn [same_afield aget] in *; try congruence; try exact (values_trans _ _ _ H G).
    all: first [exact (map_trans _ _ (forall_all _ _ (fun e x y E E' => eq_trans E E')) _ _ H G)|exact (map_trans _ _ (forall_all _ _ (fun e => type_trans (snd e))) _ _ H G)|exact (anns_trans _ _ _ H G)].
  Qed.
  Lemma library_sym a : symmetric_at same_library a.
  Proof.
    intros b H f. specialize (H f). destruct f; cbn [same_lfield lget] in *; try (symmetry; exact H); try exact (values_sym _ _ H).
    all: first [exact (map_sym _ _ (forall_all _ _ (fun e x E => eq_sym E)) _ H)|exact (map_sym _ _ (forall_all _ _ (fun e => type_sym (snd e))) _ H)|exact (anns_sym _ _ H)].
  Qed.
  Lemma library_trans a : transitive_at same_library a.
  Proof.
    intros b c H G f. specialize (H f). specialize (G f). destruct f; cbn [same_lfield lget] in *; try congruence; try exact (values_trans _ _ _ H G).
    all: first [exact (map_trans _ _ (forall_all _ _ (fun e x y E E' => eq_trans E E')) _ _ H G)|exact (map_trans _ _ (forall_all _ _ (fun e => type_trans (snd e))) _ _ H G)|exact (anns_trans _ _ _ H G)].
  Qed.

  (** ** Saved alike *)

  Lemma alike_api a b n : survives (OApi a) -> survives (OApi b) -> api_marshal a = Ok n -> api_marshal b = Ok n -> same_api a b.
  Proof.
    intros [n1 [a1 [W1 [R1 S1]]]] [n2 [b1 [W2 [R2 S2]]]] A B. assert (n1 = n2) by congruence. subst n2. assert (a1 = b1) by congruence. subst b1.
    exact (api_trans a a1 b S1 (api_sym b a1 S2)).
  Qed.
  Lemma alike_library a b n : survives (OLib a) -> survives (OLib b) -> lib_marshal a = Ok n -> lib_marshal b = Ok n -> same_library a b.
  Proof.
    intros [n1 [a1 [W1 [R1 S1]]]] [n2 [b1 [W2 [R2 S2]]]] A B. assert (n1 = n2) by congruence. subst n2. assert (a1 = b1) by congruence. subst b1.
    exact (library_trans a a1 b S1 (library_sym b a1 S2)).
  Qed.
  Lemma alike_type a b n : survives (OType a) -> survives (OType b) -> to_yaml a = Ok n -> to_yaml b = Ok n -> same_type a b.
  Proof.
    intros [n1 [a1 [W1 [R1 S1]]]] [n2 [b1 [W2 [R2 S2]]]] A B. assert (n1 = n2) by congruence. subst n2. assert (a1 = b1) by congruence. subst b1.
    exact (type_trans a a1 b S1 (type_sym b a1 S2)).
  Qed.
End Faithful.
