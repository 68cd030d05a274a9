(** Proofs of C82 and C83. *)
From Coq Require Import SpecFloat.
From Verif Require Import Base Num OMap OMapSpec Keys Yaml Values Assign Formats Meta Out Xml Example DataType Marshal Doc Api Library Setters Live Objects
  AssignProofs TypeFacts Fields FieldProofs FacetSpec FacetProofs DocProofs OrderProofs PathProofs Lens Segs ExProofs Parts ApiFields ApiSpec IntoProofs ObjProofs Places PlaceProofs Changes.

(** ** Loops over lists of entries *)

Lemma fold_others {S} (f : S -> node * node -> res S) (R : S -> S -> Prop) (K : node) :
  (forall e s s' s1 s1', R s s' -> f s e = Ok s1 -> f s' e = Ok s1' -> R s1 s1') ->
  (forall e s s' s1, fst e = K -> R s s' -> f s e = Ok s1 -> R s1 s') ->
  (forall e s s' s1', fst e = K -> R s s' -> f s' e = Ok s1' -> R s s1') ->
  forall l l', others (eq K) l l' -> forall s s' r r', R s s' -> fold_res f s l = Ok r -> fold_res f s' l' = Ok r' -> R r r'.
Proof.
  intros H1 H2 H3 l l' O. induction O as [|e l l' O IH|e l l' Pe O IH|e l l' Pe O IH]; intros s s' r r' Rs E E'; cbn [fold_res] in E, E'.
  - injection E as <-. injection E' as <-. exact Rs.
  - apply bind_ok in E as [s1 [E1 E]]. apply bind_ok in E' as [s1' [E1' E']]. exact (IH _ _ _ _ (H1 e _ _ _ _ Rs E1 E1') E E').
  - apply bind_ok in E as [s1 [E1 E]]. exact (IH _ _ _ _ (H2 e _ _ _ (eq_sym Pe) Rs E1) E E').
  - apply bind_ok in E' as [s1' [E1' E']]. exact (IH _ _ _ _ (H3 e _ _ _ (eq_sym Pe) Rs E1') E E').
Qed.

Lemma fold_pairs {S A} (f : S -> A -> res S) (R : S -> S -> Prop) (Q : A -> A -> Prop) :
  (forall e e' s s' s1 s1', Q e e' -> R s s' -> f s e = Ok s1 -> f s' e' = Ok s1' -> R s1 s1') ->
  forall l l', Forall2 Q l l' -> forall s s' r r', R s s' -> fold_res f s l = Ok r -> fold_res f s' l' = Ok r' -> R r r'.
Proof.
  intros H l l' O. induction O as [|e e' l l' He O IH]; intros s s' r r' Rs E E'; cbn [fold_res] in E, E'.
  - injection E as <-. injection E' as <-. exact Rs.
  - apply bind_ok in E as [s1 [E1 E]]. apply bind_ok in E' as [s1' [E1' E']]. exact (IH _ _ _ _ (H _ _ _ _ _ _ He Rs E1 E1') E E').
Qed.

Lemma filter_pairs {A} (g : A -> bool) (Q : A -> A -> Prop) l l' : (forall e e', Q e e' -> g e = g e') -> Forall2 Q l l' -> Forall2 Q (filter g l) (filter g l').
Proof.
  intros H O. induction O as [|e e' l l' He O IH]; cbn [filter]; [constructor|]. rewrite <- (H e e' He). destruct (g e); [constructor; assumption|exact IH].
Qed.

Lemma filter_others {A B} (P : A -> Prop) (g : A * B -> bool) l l' : (forall e, P (fst e) -> g e = false) -> others P l l' -> filter g l = filter g l'.
Proof.
  intros H O. induction O as [|e l l' O IH|e l l' Pe O IH|e l l' Pe O IH]; cbn [filter].
  - reflexivity.
  - rewrite IH. reflexivity.
  - rewrite (H e Pe). exact IH.
  - rewrite (H e Pe). exact IH.
Qed.

(** ** Maps *)

Lemma map_but_refl {K V} (P : K -> Prop) (m : amap K V) : map_but P m m.
Proof. split; [reflexivity|apply others_refl]. Qed.
Lemma map_but_sym {K V} (P : K -> Prop) (m m' : amap K V) : map_but P m m' -> map_but P m' m.
Proof. intros [H1 H2]. split; [congruence|apply others_sym; exact H2]. Qed.

Lemma sput_others {K V} keq (P : K -> Prop) k (v : V) l l' : others P l l' -> others P (sput keq k v l) (sput keq k v l').
Proof. intros H. unfold sput, sdelete. apply others_app; [apply others_filter; exact H|apply others_refl]. Qed.
Lemma sput_others_old {K V} (keq : K -> K -> bool) (P : K -> Prop) k (v : V) l l' : (forall a, keq a k = true -> P a) -> P k -> others P l l' -> others P (sput keq k v l) l'.
Proof.
  intros C Pk H. unfold sput, sdelete. rewrite <- (app_nil_r l'). apply others_app; [|apply others_old; [exact Pk|constructor]].
  apply others_drop; [|exact H]. intros e E. apply C. unfold other in E. apply negb_false_iff in E. exact E.
Qed.

Lemma mput_but {V} P k (v : V) m m' : map_but P m m' -> map_but P (mput k v m) (mput k v m').
Proof. intros [H1 H2]. split; [exact H1|]. apply sput_others. exact H2. Qed.
Lemma mput_old {V} k (v : V) m m' : map_but (eq k) m m' -> map_but (eq k) (mput k v m) m'.
Proof. intros [H1 H2]. split; [exact H1|]. apply sput_others_old; [|reflexivity|exact H2]. intros a E. apply String.eqb_eq in E. congruence. Qed.
Lemma kput_but {V} P k (v : V) m m' : map_but P m m' -> map_but P (kput k v m) (kput k v m').
Proof. intros [H1 H2]. split; [exact H1|]. apply sput_others. exact H2. Qed.
Lemma kput_old {V} (P : gkey -> Prop) k (v : V) m m' : (forall a, gkey_eqb a k = true -> P a) -> P k -> map_but P m m' -> map_but P (kput k v m) m'.
Proof. intros C Pk [H1 H2]. split; [exact H1|]. apply sput_others_old; assumption. Qed.

(** Same keys, in the same order; the values related at one key *)
Definition map_rel {V} (s : string) (R : V -> V -> Prop) (m m' : amap string V) : Prop := oord m = oord m' /\ Forall2 (alike s R) (ents m) (ents m').
Lemma map_rel_refl {V} s (R : V -> V -> Prop) m : map_rel s R m m.
Proof. split; [reflexivity|apply alike_refl]. Qed.
Lemma map_rel_but {V} s (R : V -> V -> Prop) m m' : map_rel s R m m' -> map_but (eq s) m m'.
Proof. intros [H1 H2]. split; [exact H1|]. exact (alike_others (eq s) s R _ _ eq_refl H2). Qed.
Lemma mput_rel {V} s (R : V -> V -> Prop) k v v' m m' : v = v' \/ k = s /\ R v v' -> map_rel s R m m' -> map_rel s R (mput k v m) (mput k v' m').
Proof.
  intros Hv [H1 H2]. split; [exact H1|]. cbn [mput ents]. unfold sput, sdelete. apply Forall2_app; [|constructor; [split; [reflexivity|exact Hv]|constructor]].
  apply filter_pairs; [|exact H2]. intros e e' [E _]. unfold other. rewrite E. reflexivity.
Qed.
Lemma map_rel_keys {V} s (R : V -> V -> Prop) m m' : map_rel s R m m' -> map fst (ents m) = map fst (ents m').
Proof. intros [_ H]. induction H as [|e e' l l' [E _] H IH]; [reflexivity|]. cbn. rewrite E, IH. reflexivity. Qed.
Lemma map_rel_get {V} s (R : V -> V -> Prop) m m' : map_rel s R m m' ->
  match sget String.eqb s (ents m), sget String.eqb s (ents m') with Some v, Some v' => v = v' \/ R v v' | None, None => True | _, _ => False end.
Proof.
  intros [_ H]. unfold sget. induction H as [|e e' l l' [E He] H IH]; [exact I|]. cbn [find]. rewrite <- E. destruct (String.eqb (fst e) s); [|exact IH].
  cbn [option_map]. destruct He as [He|[_ He]]; [left; exact He|right; exact He].
Qed.

(** Reading a map *)
Lemma read_same {V} (dec : node -> res V) P n m m' r r' : map_but P m m' -> read_amap dec m n = Ok r -> read_amap dec m' n = Ok r' -> map_but P r r'.
Proof.
  unfold read_amap, map_fold. destruct n as [|t l|t l]; try discriminate. intros H.
  apply (fold_pairs (read_amap_pair dec) (map_but P) eq); [|clear; induction l; constructor; auto|exact H].
  intros e e' s s' s1 s1' -> Hs E E'. unfold read_amap_pair in *. apply bind_ok in E as [k [Ek E]]. apply bind_ok in E as [v [Ev E]]. rewrite Ek in E'. cbn in E'. rewrite Ev in E'.
  cbn in E'. injection E as <-. injection E' as <-. apply mput_but. exact Hs.
Qed.
Lemma read_here {V} (dec : node -> res V) K n n' m m' r r' : edited K [] n n' -> map_but (eq (value K)) m m' -> read_amap dec m n = Ok r -> read_amap dec m' n' = Ok r' ->
  map_but (eq (value K)) r r'.
Proof.
  intros Ed. inversion Ed as [p0 n0 A1 A2 A3|t l l' O A1 A2 A3|k p t l l' O A1 A2 A3]; subst; [apply read_same|]. unfold read_amap, map_fold. intros H.
  apply (fold_others (read_amap_pair dec) (map_but (eq (value K))) K) with (l := l) (l' := l'); [| | |exact O|exact H]; unfold read_amap_pair.
  - intros e s s' s1 s1' Hs E E'. apply bind_ok in E as [k [Ek E]]. apply bind_ok in E as [v [Ev E]]. rewrite Ek in E'. cbn in E'. rewrite Ev in E'.
    cbn in E'. injection E as <-. injection E' as <-. apply mput_but. exact Hs.
  - intros e s s' s1 HK Hs E. apply bind_ok in E as [k [Ek E]]. apply bind_ok in E as [v [Ev E]]. injection E as <-. apply to_str_ok in Ek as [_ <-]. rewrite HK. apply mput_old. exact Hs.
  - intros e s s' s1 HK Hs E. apply bind_ok in E as [k [Ek E]]. apply bind_ok in E as [v [Ev E]]. injection E as <-. apply to_str_ok in Ek as [_ <-]. rewrite HK.
    apply map_but_sym, mput_old, map_but_sym. exact Hs.
Qed.
Lemma read_rel {V} (dec : node -> res V) K k p (R : V -> V -> Prop) n n' m m' r r' : edited K (k :: p) n n' ->
  (forall v v' x x', edited K p v v' -> dec v = Ok x -> dec v' = Ok x' -> R x x') ->
  map_rel (value k) R m m' -> read_amap dec m n = Ok r -> read_amap dec m' n' = Ok r' -> map_rel (value k) R r r'.
Proof.
  intros Ed D. assert (St : forall e e' s s' s1 s1', alike k (edited K p) e e' -> map_rel (value k) R s s' -> read_amap_pair dec s e = Ok s1 -> read_amap_pair dec s' e' = Ok s1' ->
    map_rel (value k) R s1 s1').
  { intros [a b] [a' b'] s s' s1 s1' [Ea Eb] Hs E E'. cbn [fst snd] in Ea, Eb. subst a'. unfold read_amap_pair in *. cbn [fst snd] in *.
    apply bind_ok in E as [j [Ej E]]. apply bind_ok in E as [v [Ev E]]. rewrite Ej in E'. cbn in E'. apply bind_ok in E' as [v' [Ev' E']]. injection E as <-. injection E' as <-.
    apply mput_rel; [|exact Hs]. destruct Eb as [->|[-> Eb]]; [left; congruence|]. right. apply to_str_ok in Ej as [_ <-]. split; [reflexivity|]. exact (D _ _ _ _ Eb Ev Ev'). }
  unfold read_amap, map_fold. inversion Ed as [p0 n0 A1 A2 A3|t l l' O A1 A2 A3|k0 p0 t l l' O A1 A2 A3]; subst.
  - destruct n' as [|t l|t l]; try discriminate. apply (fold_pairs (read_amap_pair dec) (map_rel (value k) R) (alike k (edited K p)) St l l). apply alike_refl.
  - exact (fold_pairs (read_amap_pair dec) (map_rel (value k) R) (alike k (edited K p)) St l l' O m m' r r').
Qed.

(** ** Definitions *)

Lemma edited_view K p v v' : edited K p v v' -> is_string v = is_string v' /\ value v = value v' /\ is_seq v = is_seq v' /\ node_tag v = node_tag v'.
Proof. intros Ed. inversion Ed as [p0 n0 A1 A2 A3|t l l' O A1 A2 A3|k0 p0 t l l' O A1 A2 A3]; subst; repeat split. Qed.

Lemma has_key_others s k (l l' : list (node * node)) : value k <> s -> others (eq k) l l' -> has_key s l = has_key s l'.
Proof.
  intros N O. unfold has_key. induction O as [|e l l' O IH|e l l' Pe O IH|e l l' Pe O IH]; cbn [existsb].
  - reflexivity.
  - rewrite IH. reflexivity.
  - rewrite <- Pe. destruct (String.eqb_spec (value k) s) as [X|X]; [contradiction|]. exact IH.
  - rewrite <- Pe. destruct (String.eqb_spec (value k) s) as [X|X]; [contradiction|]. exact IH.
Qed.
Lemma sift_others k l l' : ~ In (value k) kind_keys -> others (eq k) l l' -> sift_type l = sift_type l'.
Proof.
  intros N O. rewrite !sift_by_filter. rewrite (filter_others (eq k) (fun e => is_type_key (fst e)) l l'); [|..|exact O].
  - rewrite (has_key_others KeyProperties k l l'); [|intros E; apply N; rewrite E; cbn; tauto|exact O].
    rewrite (has_key_others KeyItems k l l'); [reflexivity|intros E; apply N; rewrite E; cbn; tauto|exact O].
  - intros e <-. unfold is_type_key. apply orb_false_iff. split; apply String.eqb_neq; intros E; apply N; rewrite E; cbn; tauto.
Qed.
Lemma sift_in K k p l l' : Forall2 (alike k (edited K p)) l l' -> sift_type l = sift_type l'.
Proof.
  intros O. rewrite !sift_by_filter. assert (H : forall s, has_key s l = has_key s l').
  { intros s. unfold has_key. induction O as [|e e' l l' [E _] O IH]; [reflexivity|]. cbn [existsb]. rewrite E, IH. reflexivity. }
  rewrite !H. pose proof (filter_pairs (fun e => is_type_key (fst e)) _ l l' (fun e e' X => f_equal is_type_key (proj1 X)) O) as Q.
  destruct Q as [|[a b] [a' b'] r r' [_ Eb] _]; [reflexivity|]. cbn [snd] in Eb. destruct Eb as [->|[_ Eb]]; [reflexivity|].
  destruct (edited_view _ _ _ _ Eb) as [-> [-> [-> ->]]]. reflexivity.
Qed.

Lemma getf_set_schema f s d : f <> FType -> getf f (set_schema s d) = getf f d.
Proof. destruct d; destruct f; intros N; reflexivity || contradiction. Qed.
Lemma same_shape_schema s s' d : same_shape (set_schema s d) (set_schema s' d) = true.
Proof. destruct d as [b|b x f c p]; [reflexivity|]. destruct p; reflexivity. Qed.

Section Loaded.
  Context {F : FloatIO}.

  (** The fields of two definitions of the same kind, from where they start *)
  Lemma def_folds t l l' d d' f : t <> TStr -> hat (Map t l) = Ok d -> hat (Map t l') = Ok d' -> d_kind d = d_kind d' -> f <> FType ->
    match getf f (new_type (d_kind d)) with
    | Some old => exists v v' g, getf f d = Some v /\ getf f d' = Some v' /\ (forall e, g e = true -> match target (new_type (d_kind d)) (fst e) with Some h => h = f | None => False end) /\
        (forall e e', fst e = fst e' -> g e = g e') /\
        fold_res (stepper hat (d_kind d) f) old (filter g l) = Ok v /\ fold_res (stepper hat (d_kind d) f) old (filter g l') = Ok v'
    | None => getf f d = None /\ getf f d' = None
    end.
  Proof.
    intros Ht H H' Ek Nf. destruct (hat_start t l d Ht H) as [s [_ [H0 [S0 K0]]]]. destruct (hat_start t l' d' Ht H') as [s' [_ [H0' [S0' K0']]]].
    rewrite <- Ek in H0', S0', K0'. set (d0 := set_schema s (new_type (d_kind d))) in *. set (d0' := set_schema s' (new_type (d_kind d))) in *.
    destruct (getf f (new_type (d_kind d))) as [old|] eqn:Eo.
    - assert (O : getf f d0 = Some old) by (unfold d0; rewrite getf_set_schema by exact Nf; exact Eo).
      assert (O' : getf f d0' = Some old) by (unfold d0'; rewrite getf_set_schema by exact Nf; exact Eo).
      destruct (fold_fields hat _ _ _ H0 f old O) as [v [Ev Fv]]. destruct (fold_fields hat _ _ _ H0' f old O') as [v' [Ev' Fv']].
      assert (A : forall d1 e, same_shape d1 (new_type (d_kind d)) = true -> aims d1 f e = aims (new_type (d_kind d)) f e) by (intros; apply aims_shape; assumption).
      assert (T : forall z, same_shape (set_schema z (new_type (d_kind d))) (new_type (d_kind d)) = true).
      { intros z. destruct (d_kind d); reflexivity. }
      exists v, v', (aims (new_type (d_kind d)) f). split; [exact Ev|]. split; [exact Ev'|]. split; [|split; [|split]].
      + intros e. unfold aims. destruct (target _ (fst e)) as [h|]; [|discriminate]. intros E. apply FieldProofs.field_eqb_eq in E. congruence.
      + intros e e' E. unfold aims. rewrite E. reflexivity.
      + rewrite <- (filter_ext _ _ (fun e => A d0 e (T s))). rewrite K0 in Fv. exact Fv.
      + rewrite <- (filter_ext _ _ (fun e => A d0' e (T s'))). rewrite K0' in Fv'. exact Fv'.
    - assert (N : forall z d1 l1, fold_res (type_assign hat) (set_schema z (new_type (d_kind d))) l1 = Ok d1 -> getf f d1 = None).
      { intros z d1 l1 G. destruct (fold_kind hat l1 _ _ G) as [_ Sh]. rewrite same_shape_sym in Sh. apply (getf_shape f _ d1 Sh). rewrite getf_set_schema by exact Nf. exact Eo. }
      split; [exact (N _ _ _ H0)|exact (N _ _ _ H0')].
  Qed.

  (** A key acts on its own field. *)
  Lemma target_key kd k f : target (new_type kd) k = Some f -> def_key k kd f.
  Proof.
    intros T. pose proof (shaped_new kd) as Sh. destruct (in_dec string_dec (value k) (known_keys (d_kind (new_type kd)))) as [H|H].
    - pose proof (target_cases (new_type kd) k f Sh T) as C. apply known_key_in in H as H0. rewrite d_kind_new in *. destruct H0 as [H0|[H0|[g [H1 H2]]]].
      + assert (Ek : is_type_key k = true) by (apply is_type_key_iff; auto). pose proof (aims_type (new_type kd) (k, k)) as A. unfold aims in A. cbn [fst] in A. rewrite T, Ek in A.
        apply FieldProofs.field_eqb_eq in A. subst f. left. exact H0.
      + assert (Ek : is_type_key k = true) by (apply is_type_key_iff; auto). pose proof (aims_type (new_type kd) (k, k)) as A. unfold aims in A. cbn [fst] in A. rewrite T, Ek in A.
        apply FieldProofs.field_eqb_eq in A. subst f. right. exact H0.
      + pose proof (target_facet (new_type kd) k g Sh) as X. rewrite d_kind_new in X. rewrite (X H1 H2) in T. injection T as <-. destruct g; try discriminate; exact H2.
    - rewrite (target_unknown (new_type kd) k Sh H) in T. rewrite d_kind_new in H. destruct (new_type kd) as [b|b x fs c s] eqn:En.
      + injection T as <-. cbn [def_key]. split; [exact H|]. intros _. destruct kd; try discriminate; reflexivity.
      + destruct (is_annotation_key k) eqn:Ea; [injection T as <-; exact Ea|]. match type of T with (if ?c then _ else _) = _ => destruct c end; [discriminate|].
        injection T as <-. cbn [def_key]. split; [exact H|]. rewrite Ea. discriminate.
  Qed.

  Lemma extra_step kd e v v1 : stepper hat kd FExtra v e = Ok v1 -> exists m, v = VExtra m /\ v1 = VExtra (kput (KStr (value (fst e))) (GNode (snd e)) m).
  Proof. unfold stepper, step. destruct v; try discriminate. intros E. injection E as <-. eauto. Qed.
  Lemma anns_step kd e v v1 : stepper hat kd FAnns v e = Ok v1 -> exists m a, v = VAnns m /\ read_annotation (snd e) = Ok a /\ v1 = VAnns (mput (value (fst e)) a m).
  Proof. unfold stepper, step. destruct v; try discriminate. intros E. apply bind_ok in E as [a [Ea E]]. injection E as <-. eauto. Qed.

  Lemma type_fold kd L : forall old old' v v', L <> [] -> fold_res (stepper hat kd FType) old L = Ok v -> fold_res (stepper hat kd FType) old' L = Ok v' -> v = v'.
  Proof. destruct L as [|e L]; [congruence|]. intros old old' v v' _ E E'. cbn [fold_res] in E, E'. unfold stepper at 1, step in E. unfold stepper at 1, step in E'. congruence. Qed.

  Lemma def_fields t l l' k d d' : t <> TStr -> hat (Map t l) = Ok d -> hat (Map t l') = Ok d' -> others (eq k) l l' -> d_kind d = d_kind d' -> def_but k d d'.
  Proof.
    intros Ht H H' O Ek. split; [exact Ek|]. split; [|split].
    - intros f Nk. destruct (field_dec f FType) as [->|Nf].
      + destruct (hat_start t l d Ht H) as [s [Si [H0 [S0 K0]]]]. destruct (hat_start t l' d' Ht H') as [s' [Si' [H0' [S0' K0']]]].
        rewrite <- Ek in Si', H0', S0', K0'. set (d0 := set_schema s (new_type (d_kind d))) in *. set (d0' := set_schema s' (new_type (d_kind d))) in *.
        assert (G : forall d1, getf FType d1 = Some (VStr (b_schema (d_base d1)))) by (intros d1; destruct d1; reflexivity).
        destruct (fold_fields hat _ _ _ H0 FType _ (G d0)) as [v [Ev Fv]]. destruct (fold_fields hat _ _ _ H0' FType _ (G d0')) as [v' [Ev' Fv']].
        rewrite Ev, Ev'. f_equal. rewrite K0 in Fv. rewrite K0' in Fv'.
        rewrite (filter_ext _ _ (aims_type d0)) in Fv. rewrite (filter_ext _ _ (aims_type d0')) in Fv'.
        assert (Q : filter (fun e => is_type_key (fst e)) l = filter (fun e => is_type_key (fst e)) l').
        { apply (filter_others (eq k)); [|exact O]. intros e <-. unfold is_type_key. apply orb_false_iff. split; apply String.eqb_neq; intros E; apply Nk; cbn; tauto. }
        rewrite sift_by_filter in Si, Si'. rewrite <- Q in Fv', Si'. destruct (filter (fun e => is_type_key (fst e)) l) as [|e0 r0].
        * cbn [fold_res] in Fv, Fv'. injection Fv as <-. injection Fv' as <-. injection Si as Si. injection Si' as Si'.
          assert (X : forall z y kd, new_type y = set_schema z (new_type kd) -> set_schema z (new_type kd) = new_type kd).
          { intros z y kd E. rewrite <- E. f_equal. pose proof (f_equal d_kind E) as E1. rewrite d_kind_set, !d_kind_new in E1. exact E1. }
          unfold d0, d0'. rewrite (X _ _ _ Si), (X _ _ _ Si'). reflexivity.
        * exact (type_fold _ (e0 :: r0) _ _ _ _ ltac:(discriminate) Fv Fv').
      + pose proof (def_folds t l l' d d' f Ht H H' Ek Nf) as D. destruct (getf f (new_type (d_kind d))) as [old|]; [|destruct D as [-> ->]; reflexivity].
        destruct D as [v [v' [g [-> [-> [Hg [_ [F1 F2]]]]]]]]. rewrite (filter_others (eq k) g l l') in F1; [congruence| |exact O].
        intros e Hk. destruct (g e) eqn:Ge; [|reflexivity]. specialize (Hg e Ge). rewrite <- Hk in Hg. destruct (target _ k) as [h|] eqn:T; [|contradiction]. subst h.
        destruct (Nk (target_key _ _ _ T)).
    - pose proof (def_folds t l l' d d' FExtra Ht H H' Ek ltac:(discriminate)) as D. rewrite getf_extra in D. destruct D as [v [v' [g [E1 [E2 [_ [_ [F1 F2]]]]]]]].
      rewrite getf_extra in E1, E2. injection E1 as <-. injection E2 as <-.
      assert (R : exists m m', VExtra (d_extra d) = VExtra m /\ VExtra (d_extra d') = VExtra m' /\ map_but (eq (KStr (value k))) m m').
      { revert F1 F2. apply (fold_others (stepper hat (d_kind d) FExtra) (fun v v' => exists m m', v = VExtra m /\ v' = VExtra m' /\ map_but (eq (KStr (value k))) m m') k).
        - intros e s s' s1 s1' [m [m' [-> [-> Hm]]]] E E'. apply extra_step in E as [m0 [X ->]]. apply extra_step in E' as [m0' [X' ->]]. injection X as <-. injection X' as <-.
          exists (kput (KStr (value (fst e))) (GNode (snd e)) m), (kput (KStr (value (fst e))) (GNode (snd e)) m'). split; [reflexivity|]. split; [reflexivity|]. apply kput_but. exact Hm.
        - intros e s s' s1 Hk [m [m' [-> [-> Hm]]]] E. apply extra_step in E as [m0 [X ->]]. injection X as <-. rewrite Hk. eexists _, m'. split; [reflexivity|]. split; [reflexivity|].
          apply kput_old; [|reflexivity|exact Hm]. intros a Ea. destruct a; try discriminate. cbn in Ea. apply String.eqb_eq in Ea. congruence.
        - intros e s s' s1 Hk [m [m' [-> [-> Hm]]]] E. apply extra_step in E as [m0 [X ->]]. injection X as <-. rewrite Hk. eexists m, _. split; [reflexivity|]. split; [reflexivity|].
          apply map_but_sym, kput_old; [|reflexivity|apply map_but_sym; exact Hm]. intros a Ea. destruct a; try discriminate. cbn in Ea. apply String.eqb_eq in Ea. congruence.
        - apply others_filter. exact O.
        - eexists _, _. split; [reflexivity|]. split; [reflexivity|]. apply map_but_refl. }
      destruct R as [m [m' [X [X' Hm]]]]. injection X as <-. injection X' as <-. exact Hm.
    - pose proof (def_folds t l l' d d' FAnns Ht H H' Ek ltac:(discriminate)) as D. destruct (getf FAnns (new_type (d_kind d))) as [old|] eqn:Eo; [|destruct D as [-> ->]; exact I].
      destruct D as [v [v' [g [-> [-> [_ [_ [F1 F2]]]]]]]].
      assert (R : exists m m', v = VAnns m /\ v' = VAnns m' /\ map_but (eq (value k)) m m').
      { revert F1 F2. apply (fold_others (stepper hat (d_kind d) FAnns) (fun v v' => exists m m', v = VAnns m /\ v' = VAnns m' /\ map_but (eq (value k)) m m') k).
        - intros e s s' s1 s1' [m [m' [-> [-> Hm]]]] E E'. apply anns_step in E as [m0 [a [X [Ea ->]]]]. apply anns_step in E' as [m0' [a' [X' [Ea' ->]]]]. injection X as <-. injection X' as <-.
          rewrite Ea in Ea'. injection Ea' as <-. eexists _, _. split; [reflexivity|]. split; [reflexivity|]. apply mput_but. exact Hm.
        - intros e s s' s1 Hk [m [m' [-> [-> Hm]]]] E. apply anns_step in E as [m0 [a [X [_ ->]]]]. injection X as <-. rewrite Hk. eexists _, m'. split; [reflexivity|]. split; [reflexivity|].
          apply mput_old. exact Hm.
        - intros e s s' s1 Hk [m [m' [-> [-> Hm]]]] E. apply anns_step in E as [m0 [a [X [_ ->]]]]. injection X as <-. rewrite Hk. eexists m, _. split; [reflexivity|]. split; [reflexivity|].
          apply map_but_sym, mput_old, map_but_sym. exact Hm.
        - apply others_filter. exact O.
        - pose proof (start_anns "" (d_kind d)) as S. rewrite getf_set_schema in S by discriminate. rewrite Eo in S. destruct (d_kind d); try discriminate; injection S as ->;
            (eexists _, _; split; [reflexivity|]; split; [reflexivity|]; apply map_but_refl). }
      destruct R as [m [m' [-> [-> Hm]]]]. exact Hm.
  Qed.
  (** ** Things *)

  Definition read_thing (t : thing) : bool :=
    match t with ThApi _ | ThLib _ | ThDef _ | ThDefs _ | ThFacets _ | ThExs _ | ThUntyped _ | ThStrings _ | ThEx _ => true | _ => false end.
  Lemma def_but_refl k d : def_but k d d.
  Proof.
    split; [reflexivity|]. split; [reflexivity|]. split; [apply map_but_refl|].
    destruct d as [b|b x f c s]; cbn [getf]; [exact I|]. apply map_but_refl.
  Qed.
  Lemma same_here_refl k t : read_thing t = true -> same_here k t t.
  Proof.
    destruct t; try discriminate; intros _; cbn [same_here]; try apply map_but_refl; try exact I.
    - split; [reflexivity|]. repeat split; apply others_refl.
    - split; [reflexivity|]. repeat split; apply others_refl.
    - apply def_but_refl.
  Qed.
  Lemma get_keyed {A} (f : A -> thing) s (m : amap string A) : sget name_eqb (NKey s) (keyed f m) = option_map (fun v => Some (f v)) (sget String.eqb s (ents m)).
  Proof.
    unfold keyed, sget. induction (ents m) as [|e l IH]; [reflexivity|]. cbn [map find fst name_eqb]. destruct (String.eqb (fst e) s); [reflexivity|exact IH].
  Qed.
  Lemma leads_read k t n q : read_thing t = true -> leads k t = Some n -> get_part n t = Some q -> read_thing q = true.
  Proof.
    intros Hr. assert (G : forall A (f : A -> thing) m, (forall a, read_thing (f a) = true) -> get_part (NKey k) t = match sget name_eqb (NKey k) (keyed f m) with Some o => o | None => None end ->
      get_part (NKey k) t = Some q -> read_thing q = true).
    { intros A f m Hf E1 E2. rewrite E1, get_keyed in E2. destruct (sget String.eqb k (ents m)); cbn in E2; [|discriminate]. injection E2 as <-. apply Hf. }
    assert (L : forall (o : option Objects.field) fs, o = look k fs -> forall f, o = Some f -> In f (map snd fs)).
    { intros o fs ->. induction fs as [|[j g] fs IH]; cbn [look]; [discriminate|]. destruct (String.eqb k j); intros f E; [injection E as ->; left; reflexivity|right; exact (IH f E)]. }
    destruct t as [a|l|d|e|x|d|l|m|m|m|m|m|m|m]; try discriminate; cbn [leads].
    - destruct (look k document_fields) as [f|] eqn:E; [|discriminate]. intros X. injection X as <-. apply (L _ document_fields eq_refl f) in E. cbn in E.
      intuition subst f; cbn in H; injection H as <-; reflexivity.
    - destruct (look k document_fields) as [f|] eqn:E; [|discriminate]. intros X. injection X as <-. apply (L _ document_fields eq_refl f) in E. cbn in E.
      intuition subst f; cbn in H; try discriminate; injection H as <-; reflexivity.
    - destruct (look k definition_fields) as [f|] eqn:E; [|discriminate]. intros X. injection X as <-. apply (L _ definition_fields eq_refl f) in E. cbn in E.
      destruct d as [b|b x fs c s]; [intuition subst f; discriminate|].
      intuition subst f; destruct s as [|u mn mx [it|]| | | | | |]; cbn in H; try discriminate; injection H as <-; reflexivity.
    - intros X. injection X as <-. exact (G _ ThDef m (fun _ => eq_refl) eq_refl).
    - intros X. injection X as <-. exact (G _ ThDefs m (fun _ => eq_refl) eq_refl).
    - intros X. injection X as <-. exact (G _ ThEx m (fun _ => eq_refl) eq_refl).
  Qed.
  Lemma same_but_refl K p : forall t, read_thing t = true -> same_but_at p K t t.
  Proof.
    induction p as [|k p IH]; intros t Hr; cbn [same_but_at].
    - left. apply same_here_refl. exact Hr.
    - split; [apply same_here_refl; exact Hr|]. split; [reflexivity|]. destruct (leads (value k) t) as [n|] eqn:L; [|exact I].
      destruct (get_part n t) as [q|] eqn:E; [|exact I]. apply IH. exact (leads_read _ _ _ _ Hr L E).
  Qed.

  (** ** Maps of definitions, facet definitions and examples *)

  Variable K : node.

  (** What is kept about maps while they are read *)
  Definition during {V} (th : V -> thing) (p : list node) (m m' : amap string V) : Prop :=
    match p with
    | [] => map_but (eq (value K)) m m'
    | k :: p => map_rel (value k) (fun v v' => same_but_at p K (th v) (th v')) m m'
    end.
  Lemma during_refl {V} (th : V -> thing) p m : during th p m m.
  Proof. destruct p; [apply map_but_refl|apply map_rel_refl]. Qed.
  Lemma read_during {V} (th : V -> thing) (dec : node -> res V) p n n' m m' r r' : edited K p n n' ->
    (forall k q v v' x x', p = k :: q -> edited K q v v' -> dec v = Ok x -> dec v' = Ok x' -> same_but_at q K (th x) (th x')) ->
    during th p m m' -> read_amap dec m n = Ok r -> read_amap dec m' n' = Ok r' -> during th p r r'.
  Proof.
    destruct p as [|k p]; cbn [during]; intros Ed D.
    - apply read_here. exact Ed.
    - apply (read_rel dec K k p); [exact Ed|]. intros v v' x x'. exact (D k p v v' x x' eq_refl).
  Qed.
  Lemma during_keyed {V} (th : V -> thing) (Th : amap string V -> thing) p m m' :
    (forall a, parts (Th a) = keyed th a) -> (forall k a a', same_here k (Th a) (Th a') <-> map_but (eq (value k)) a a') -> (forall k a, leads k (Th a) = Some (NKey k)) ->
    (forall v, read_thing (th v) = true) -> during th p m m' -> same_but_at p K (Th m) (Th m').
  Proof.
    intros Hp Hs Hl Hr. destruct p as [|k p]; cbn [during same_but_at].
    - intros H. left. apply Hs. exact H.
    - intros H. split; [apply Hs; exact (map_rel_but _ _ _ _ H)|]. split.
      + rewrite !Hp. unfold keyed. rewrite !map_map. cbn [fst]. rewrite <- !(map_map fst NKey). rewrite (map_rel_keys _ _ _ _ H). reflexivity.
      + rewrite Hl. unfold get_part. rewrite !Hp, !get_keyed. pose proof (map_rel_get _ _ _ _ H) as G.
        destruct (sget String.eqb (value k) (ents m)) as [v|], (sget String.eqb (value k) (ents m')) as [v'|]; cbn [option_map]; try contradiction; [|exact I].
        destruct G as [<-|G]; [apply same_but_refl, Hr|exact G].
  Qed.
  Lemma during_defs p m m' : during ThDef p m m' -> same_but_at p K (ThDefs m) (ThDefs m').
  Proof. apply during_keyed; reflexivity. Qed.
  Lemma during_facets p m m' : during ThDefs p m m' -> same_but_at p K (ThFacets m) (ThFacets m').
  Proof. apply during_keyed; reflexivity. Qed.
  Lemma during_exs p m m' : during ThEx p m m' -> same_but_at p K (ThExs m) (ThExs m').
  Proof. apply during_keyed; reflexivity. Qed.
  Lemma same_exs p e e' : same_but_at p K (ThEx e) (ThEx e').
  Proof. destruct p; cbn; [left; exact I|]. repeat split. Qed.
  (** ** Definitions, to any depth *)

  Definition opt_same (p : list node) (o o' : option thing) : Prop := match o, o' with Some q, Some q' => same_but_at p K q q' | None, None => True | _, _ => False end.
  Lemma part_items d : get_part (NField FdItems) (ThDef d) = match getf FItems d with Some (VOptType o) => option_map ThDef o | _ => None end.
  Proof. destruct d as [b|b x f c s]; [reflexivity|]. destruct s; reflexivity. Qed.
  Lemma part_props d : get_part (NField FdProperties) (ThDef d) = match getf FProps d with Some (VTypes m) => Some (ThDefs m) | _ => None end.
  Proof. destruct d as [b|b x f c s]; [reflexivity|]. destruct s; reflexivity. Qed.
  Lemma part_facets d : get_part (NField FdFacetDefinitions) (ThDef d) = match getf FFacets d with Some (VFacets m) => Some (ThFacets m) | _ => None end.
  Proof. destruct d as [b|b x f c s]; reflexivity. Qed.
  Lemma part_examples d : get_part (NField FdExamples) (ThDef d) = match getf FExamples d with Some (VExs m) => Some (ThExs m) | _ => None end.
  Proof. destruct d as [b|b x f c s]; reflexivity. Qed.

  (** One field, along the way *)
  Lemma def_field f (R : fval -> fval -> Prop) t l l' k p d d' : t <> TStr -> hat (Map t l) = Ok d -> hat (Map t l') = Ok d' -> d_kind d = d_kind d' -> f <> FType ->
    Forall2 (alike k (edited K p)) l l' -> (forall old, getf f (new_type (d_kind d)) = Some old -> R old old) ->
    (forall a v v' s s' s1 s1', v = v' \/ edited K p v v' -> R s s' -> stepper hat (d_kind d) f s (a, v) = Ok s1 -> stepper hat (d_kind d) f s' (a, v') = Ok s1' -> R s1 s1') ->
    match getf f d, getf f d' with Some v, Some v' => R v v' | None, None => True | _, _ => False end.
  Proof.
    intros Ht H H' Ek Nf O R0 St. pose proof (def_folds t l l' d d' f Ht H H' Ek Nf) as D. destruct (getf f (new_type (d_kind d))) as [old|]; [|destruct D as [-> ->]; exact I].
    destruct D as [v [v' [g [-> [-> [_ [Hg [F1 F2]]]]]]]]. revert F1 F2.
    apply (fold_pairs (stepper hat (d_kind d) f) R (alike k (edited K p))) with (l := filter g l) (l' := filter g l').
    - intros [a b] [a' b'] s s' s1 s1' [Ea Eb] Rs E E'. cbn [fst snd] in Ea, Eb. subst a'. apply (St a b b' s s' s1 s1'); [|exact Rs|exact E|exact E'].
      destruct Eb as [Eb|[_ Eb]]; [left; exact Eb|right; exact Eb].
    - apply filter_pairs; [|exact O]. intros e e' [E _]. exact (Hg e e' E).
    - exact (R0 old eq_refl).
  Qed.

  Lemma kinds_in t l l' k p d d' : t <> TStr -> hat (Map t l) = Ok d -> hat (Map t l') = Ok d' -> Forall2 (alike k (edited K p)) l l' -> d_kind d = d_kind d'.
  Proof.
    intros Ht H H' O. destruct (hat_start t l d Ht H) as [s [Si _]]. destruct (hat_start t l' d' Ht H') as [s' [Si' _]]. rewrite (sift_in K k p l l' O) in Si. rewrite Si in Si'.
    injection Si' as E. pose proof (f_equal d_kind E) as E1. rewrite !d_kind_set, !d_kind_new in E1. exact E1.
  Qed.
  Lemma kinds_here t l l' d d' : t <> TStr -> hat (Map t l) = Ok d -> hat (Map t l') = Ok d' -> others (eq K) l l' -> ~ In (value K) kind_keys -> d_kind d = d_kind d'.
  Proof.
    intros Ht H H' O N. destruct (hat_start t l d Ht H) as [s [Si _]]. destruct (hat_start t l' d' Ht H') as [s' [Si' _]]. rewrite (sift_others K l l' N O) in Si. rewrite Si in Si'.
    injection Si' as E. pose proof (f_equal d_kind E) as E1. rewrite !d_kind_set, !d_kind_new in E1. exact E1.
  Qed.

  Definition all_depth (p : list node) : Prop :=
    (forall n n' d d', edited K p n n' -> hat n = Ok d -> hat n' = Ok d' -> same_but_at p K (ThDef d) (ThDef d')) /\
    (forall (dec : node -> res dtype) n n' m m' r r', (forall v d, dec v = Ok d -> hat v = Ok d) -> edited K p n n' -> during ThDef p m m' ->
       read_amap dec m n = Ok r -> read_amap dec m' n' = Ok r' -> during ThDef p r r') /\
    (forall n n' m m' r r', edited K p n n' -> during ThDefs p m m' -> read_facets hat m n = Ok r -> read_facets hat m' n' = Ok r' -> during ThDefs p r r').

  Lemma is_str_map t l : is_string (Map t l) = true -> t = TStr.
  Proof. unfold is_string. cbn. destruct t; try discriminate. reflexivity. Qed.

  Lemma def_apart p : all_depth p.
  Proof.
    induction p as [|k p [IHd [IHm IHf]]].
    - split; [|split].
      + intros n n' d d' Ed H H'. inversion Ed as [p0 n0 A1 A2 A3|t l l' O A1 A2 A3|k0 p0 t l l' O A1 A2 A3]; subst.
        { assert (d' = d) by congruence. subst. left. apply same_here_refl. reflexivity. }
        destruct (is_string (Map t l)) eqn:Es.
        { apply is_str_map in Es. subst t. rewrite hat_eq in H, H'. cbn in H, H'. assert (d' = d) by congruence. subst. left. apply same_here_refl. reflexivity. }
        assert (Ht : t <> TStr) by (intros ->; discriminate).
        assert (Dk : {d_kind d = d_kind d'} + {d_kind d <> d_kind d'}) by decide equality. destruct Dk as [Ek|Ek].
        * left. exact (def_fields t l l' K d d' Ht H H' O Ek).
        * right. split; [|exact Ek]. destruct (in_dec string_dec (value K) kind_keys) as [Hi|Hn]; [exact Hi|]. exfalso. apply Ek. exact (kinds_here t l l' d d' Ht H H' O Hn).
      + intros dec n n' m m' r r' _ Ed. apply read_during; [exact Ed|discriminate].
      + intros n n' m m' r r' Ed. apply read_during; [exact Ed|discriminate].
    - split; [|split].
      + intros n n' d d' Ed H H'. inversion Ed as [p0 n0 A1 A2 A3|t l l' O A1 A2 A3|k0 p0 t l l' O A1 A2 A3]; subst.
        { assert (d' = d) by congruence. subst. apply same_but_refl. reflexivity. }
        destruct (is_string (Map t l)) eqn:Es.
        { apply is_str_map in Es. subst t. rewrite hat_eq in H, H'. cbn in H, H'. assert (d' = d) by congruence. subst. apply same_but_refl. reflexivity. }
        assert (Ht : t <> TStr) by (intros ->; discriminate). fold (alike k (edited K p)) in O.
        pose proof (kinds_in t l l' k p d d' Ht H H' O) as Ek. cbn [same_but_at]. split; [|split].
        * exact (def_fields t l l' k d d' Ht H H' (alike_others (eq k) k _ _ _ eq_refl O) Ek).
        * pose proof (hat_shaped _ _ H) as S. pose proof (hat_shaped _ _ H') as S'. unfold shaped in S, S'. rewrite <- Ek in S'. rewrite same_shape_sym in S'.
          pose proof (same_shape_trans _ _ _ S S') as X. destruct d as [b|b x fs c s], d' as [b'|b' x' fs' c' s']; cbn in X; try discriminate; [reflexivity|].
          destruct s, s'; try discriminate; reflexivity.
        * cbn [leads]. destruct (look (value k) definition_fields) as [f|] eqn:L; [|exact I]. cbn [option_map].
          unfold definition_fields in L. cbn [look] in L.
          repeat match type of L with (if ?c then _ else _) = _ => destruct c end; try discriminate; injection L as <-.
          -- rewrite !part_items. pose proof (def_field FItems (fun v v' => exists o o', v = VOptType o /\ v' = VOptType o' /\ opt_same p (option_map ThDef o) (option_map ThDef o'))
               t l l' k p d d' Ht H H' Ek ltac:(discriminate) O) as D.
             assert (Y : match getf FItems d, getf FItems d' with Some v, Some v' => exists o o', v = VOptType o /\ v' = VOptType o' /\ opt_same p (option_map ThDef o) (option_map ThDef o') | None, None => True | _, _ => False end).
             { apply D.
               - intros old Eo. destruct (d_kind d); try discriminate. injection Eo as <-. exists None, None. repeat split.
               - intros a v v' s s' s1 s1' Hv _ E E'. unfold stepper, step in E, E'. cbn [fst snd] in E, E'. apply bind_ok in E as [x [Ex E]]. apply bind_ok in E' as [x' [Ex' E']].
                 injection E as <-. injection E' as <-. eexists _, _. split; [reflexivity|]. split; [reflexivity|]. cbn. destruct Hv as [->|Hv].
                 + assert (x' = x) by congruence. subst. apply same_but_refl. reflexivity.
                 + exact (IHd _ _ _ _ Hv Ex Ex'). }
             destruct (getf FItems d) as [v|], (getf FItems d') as [v'|]; try contradiction; [|exact I]. destruct Y as [o [o' [-> [-> Y]]]]. exact Y.
          -- rewrite !part_props.
             assert (Y : match getf FProps d, getf FProps d' with Some v, Some v' => exists m m', v = VTypes m /\ v' = VTypes m' /\ during ThDef p m m' | None, None => True | _, _ => False end).
             { apply (def_field FProps (fun v v' => exists m m', v = VTypes m /\ v' = VTypes m' /\ during ThDef p m m') t l l' k p d d' Ht H H' Ek ltac:(discriminate) O).
               - intros old Eo. destruct (d_kind d); try discriminate. injection Eo as <-. eexists _, _. split; [reflexivity|]. split; [reflexivity|]. apply during_refl.
               - intros a v v' s s' s1 s1' Hv [m [m' [-> [-> Hm]]]] E E'. unfold stepper, step in E, E'. cbn [fst snd] in E, E'. apply bind_ok in E as [x [Ex E]]. apply bind_ok in E' as [x' [Ex' E']].
                 injection E as <-. injection E' as <-. eexists _, _. split; [reflexivity|]. split; [reflexivity|]. revert Hm Ex Ex'. apply IHm.
                 + intros w dd Ew. apply bind_ok in Ew as [d1 [E1 E2]]. destruct d1; [discriminate|]. injection E2 as <-. exact E1.
                 + destruct Hv as [->|Hv]; [apply edited_not|exact Hv]. }
             destruct (getf FProps d) as [v|], (getf FProps d') as [v'|]; try contradiction; [|exact I]. destruct Y as [m [m' [-> [-> Y]]]]. apply during_defs. exact Y.
          -- rewrite !part_facets.
             assert (Y : match getf FFacets d, getf FFacets d' with Some v, Some v' => exists m m', v = VFacets m /\ v' = VFacets m' /\ during ThDefs p m m' | None, None => True | _, _ => False end).
             { apply (def_field FFacets (fun v v' => exists m m', v = VFacets m /\ v' = VFacets m' /\ during ThDefs p m m') t l l' k p d d' Ht H H' Ek ltac:(discriminate) O).
               - intros old Eo. assert (exists m, old = VFacets m) as [m ->] by (destruct (d_kind d); try discriminate; injection Eo as <-; eauto). eexists _, _. split; [reflexivity|]. split; [reflexivity|]. apply during_refl.
               - intros a v v' s s' s1 s1' Hv [m [m' [-> [-> Hm]]]] E E'. unfold stepper, step in E, E'. cbn [fst snd] in E, E'. apply bind_ok in E as [x [Ex E]]. apply bind_ok in E' as [x' [Ex' E']].
                 injection E as <-. injection E' as <-. eexists _, _. split; [reflexivity|]. split; [reflexivity|]. revert Hm Ex Ex'. apply IHf.
                 destruct Hv as [->|Hv]; [apply edited_not|exact Hv]. }
             destruct (getf FFacets d) as [v|], (getf FFacets d') as [v'|]; try contradiction; [|exact I]. destruct Y as [m [m' [-> [-> Y]]]]. apply during_facets. exact Y.
          -- rewrite !part_examples.
             assert (Y : match getf FExamples d, getf FExamples d' with Some v, Some v' => exists m m', v = VExs m /\ v' = VExs m' /\ during ThEx p m m' | None, None => True | _, _ => False end).
             { apply (def_field FExamples (fun v v' => exists m m', v = VExs m /\ v' = VExs m' /\ during ThEx p m m') t l l' k p d d' Ht H H' Ek ltac:(discriminate) O).
               - intros old Eo. assert (exists m, old = VExs m) as [m ->] by (destruct (d_kind d); try discriminate; injection Eo as <-; eauto). eexists _, _. split; [reflexivity|]. split; [reflexivity|]. apply during_refl.
               - intros a v v' s s' s1 s1' Hv [m [m' [-> [-> Hm]]]] E E'. unfold stepper, step in E, E'. cbn [fst snd] in E, E'. apply bind_ok in E as [x [Ex E]]. apply bind_ok in E' as [x' [Ex' E']].
                 injection E as <-. injection E' as <-. eexists _, _. split; [reflexivity|]. split; [reflexivity|]. revert Hm Ex Ex'. apply read_during.
                 + destruct Hv as [->|Hv]; [apply edited_not|exact Hv].
                 + intros. apply same_exs. }
             destruct (getf FExamples d) as [v|], (getf FExamples d') as [v'|]; try contradiction; [|exact I]. destruct Y as [m [m' [-> [-> Y]]]]. apply during_exs. exact Y.
      + intros dec n n' m m' r r' Hdec Ed. apply read_during; [exact Ed|]. intros k0 q v v' x x' E Ev Ex Ex'. injection E as <- <-. exact (IHd _ _ _ _ Ev (Hdec _ _ Ex) (Hdec _ _ Ex')).
      + intros n n' m m' r r' Ed. apply read_during; [exact Ed|]. intros k0 q v v' x x' E Ev Ex Ex'. injection E as <- <-. apply during_defs.
        revert Ex Ex'. apply IHm; [auto|exact Ev|]. apply during_refl.
  Qed.

  (** ** API documents *)

  Lemma scalar_eq k g a : to_scalar k = Ok g -> gkey_eqb a g = true -> scalar_of k a.
  Proof. intros E H. exists g. split; [exact E|]. right. exact H. Qed.
  Lemma scalar_self k g : to_scalar k = Ok g -> scalar_of k g.
  Proof. intros E. exists g. split; [exact E|]. left. reflexivity. Qed.
  Lemma extra_fold k l l' (m m' r r' : amap gkey gval) : others (eq k) l l' -> map_but (scalar_of k) m m' ->
    fold_res (fun old e => do k <- to_scalar (fst e); Ok (kput k (GNode (snd e)) old)) m l = Ok r ->
    fold_res (fun old e => do k <- to_scalar (fst e); Ok (kput k (GNode (snd e)) old)) m' l' = Ok r' -> map_but (scalar_of k) r r'.
  Proof.
    intros O. apply (fold_others _ (map_but (scalar_of k)) k); [| | |exact O].
    - intros e s s' s1 s1' R E E'. apply bind_ok in E as [g [Eg E]]. injection E as <-. rewrite Eg in E'. injection E' as <-. apply kput_but. exact R.
    - intros e s s' s1 Hk R E. apply bind_ok in E as [g [Eg E]]. injection E as <-. rewrite Hk in Eg. apply kput_old; [|exact (scalar_self _ _ Eg)|exact R].
      intros a. exact (scalar_eq _ _ _ Eg).
    - intros e s s' s1 Hk R E. apply bind_ok in E as [g [Eg E]]. injection E as <-. rewrite Hk in Eg. apply map_but_sym, kput_old; [|exact (scalar_self _ _ Eg)|apply map_but_sym; exact R].
      intros a. exact (scalar_eq _ _ _ Eg).
  Qed.

  Lemma target_look e f : api_target e = Some f -> f = api_key (fst e).
  Proof.
    unfold api_target, api_key, starts. destruct (is_string (fst e)); cbn [negb]; [|congruence]. destruct (value (fst e)) as [|c w]; [discriminate|].
    destruct (Ascii.eqb c "("); [congruence|]. destruct (Ascii.eqb c "/"); [congruence|]. destruct (look (String c w) api_keys); congruence.
  Qed.

  Lemma api_here k l l' a0 a a' : others (eq k) l l' -> fold_res api_assign a0 l = Ok a -> fold_res api_assign a0 l' = Ok a' -> api_but k a a'.
  Proof.
    intros O H H'. pose proof (api_fold l a0 a H) as G. pose proof (api_fold l' a0 a' H') as G'. split; [|split; [|split]].
    - intros f Nk. specialize (G f). specialize (G' f). rewrite (filter_others (eq k) (api_mine f) l l') in G; [congruence| |exact O].
      intros e He. destruct (api_mine f e) eqn:E; [|reflexivity]. apply mine_target in E. apply target_look in E. rewrite <- He in E. contradiction.
    - specialize (G AAnnotations). specialize (G' AAnnotations). cbn [aget api_step] in G, G'. revert G G'.
      apply (fold_others _ (map_but (eq (value k))) k); [| | |apply others_filter; exact O|apply map_but_refl].
      + intros e s s' s1 s1' R E E'. apply bind_ok in E as [g [Eg E]]. injection E as <-. rewrite Eg in E'. injection E' as <-. apply mput_but. exact R.
      + intros e s s' s1 Hk R E. apply bind_ok in E as [g [Eg E]]. injection E as <-. rewrite Hk. apply mput_old. exact R.
      + intros e s s' s1 Hk R E. apply bind_ok in E as [g [Eg E]]. injection E as <-. rewrite Hk. apply map_but_sym, mput_old, map_but_sym. exact R.
    - specialize (G AResources). specialize (G' AResources). cbn [aget api_step] in G, G'. revert G G'.
      apply (fold_others _ (map_but (eq (value k))) k); [| | |apply others_filter; exact O|apply map_but_refl].
      + intros e s s' s1 s1' R E E'. injection E as <-. injection E' as <-. apply mput_but. exact R.
      + intros e s s' s1 Hk R E. injection E as <-. rewrite Hk. apply mput_old. exact R.
      + intros e s s' s1 Hk R E. injection E as <-. rewrite Hk. apply map_but_sym, mput_old, map_but_sym. exact R.
    - specialize (G AExtra). specialize (G' AExtra). cbn [aget api_step] in G, G'. revert G G'. apply extra_fold; [apply others_filter; exact O|apply map_but_refl].
  Qed.

  (** The maps of a document, along the way *)
  Lemma in_types k p l l' m r r' : Forall2 (alike k (edited K p)) l l' ->
    fold_res (fun old (e : node * node) => read_types old (snd e)) m l = Ok r -> fold_res (fun old (e : node * node) => read_types old (snd e)) m l' = Ok r' -> same_but_at p K (ThDefs r) (ThDefs r').
  Proof.
    intros O G G'. apply during_defs. revert G G'. apply (fold_pairs _ (during ThDef p) (alike k (edited K p))); [|exact O|apply during_refl].
    intros e e' s s' s1 s1' [_ He] R. destruct (def_apart p) as [_ [B _]]. apply B; [auto| |exact R]. destruct He as [->|[_ He]]; [apply edited_not|exact He].
  Qed.
  Lemma in_plain {V} (dec : node -> res V) (Th : amap string V -> thing) k p l l' m r r' :
    (forall a, parts (Th a) = []) -> (forall k a a', same_here k (Th a) (Th a') <-> map_but (eq (value k)) a a') -> (forall k a, leads k (Th a) = None) ->
    Forall2 (alike k (edited K p)) l l' ->
    fold_res (fun old (e : node * node) => read_amap dec old (snd e)) m l = Ok r -> fold_res (fun old (e : node * node) => read_amap dec old (snd e)) m l' = Ok r' -> same_but_at p K (Th r) (Th r').
  Proof.
    intros Hp Hs Hl O G G'.
    assert (R : match p with [] => map_but (eq (value K)) r r' | j :: _ => map_rel (value j) (fun _ _ => True) r r' end).
    { revert G G'. apply (fold_pairs _ (fun r r' => match p with [] => map_but (eq (value K)) r r' | j :: _ => map_rel (value j) (fun _ _ => True) r r' end) (alike k (edited K p)));
        [|exact O|destruct p; [apply map_but_refl|apply map_rel_refl]].
      intros e e' s s' s1 s1' [_ He] R. assert (Ed : edited K p (snd e) (snd e')) by (destruct He as [->|[_ He]]; [apply edited_not|exact He]).
      destruct p as [|j q]; [apply read_here; assumption|]. apply (read_rel dec K j q); [exact Ed|auto|exact R]. }
    destruct p as [|j q]; cbn [same_but_at].
    - left. apply Hs. exact R.
    - split; [apply Hs, (map_rel_but _ _ _ _ R)|]. rewrite !Hp, Hl. split; [reflexivity|exact I].
  Qed.

  Lemma mine_keys f e e' : fst e = fst e' -> api_mine f e = api_mine f e'.
  Proof. intros E. unfold api_mine, mine, api_target. rewrite E. reflexivity. Qed.

  Lemma api_apart p n n' a0 a a' : edited K p n n' -> api_unmarshal n a0 = Ok a -> api_unmarshal n' a0 = Ok a' -> same_but_at p K (ThApi a) (ThApi a').
  Proof.
    intros Ed H H'. inversion Ed as [p0 n0 A1 A2 A3|t l l' O A1 A2 A3|k p0 t l l' O A1 A2 A3]; subst.
    { assert (a' = a) by congruence. subst. apply same_but_refl. reflexivity. }
    { left. exact (api_here K l l' a0 a a' O H H'). }
    fold (alike k (edited K p0)) in O. cbn [same_but_at]. split; [|split].
    - exact (api_here k l l' a0 a a' (alike_others (eq k) k _ _ _ eq_refl O) H H').
    - reflexivity.
    - pose proof (api_fold l a0 a H) as G. pose proof (api_fold l' a0 a' H') as G'.
      assert (O' : forall f, Forall2 (alike k (edited K p0)) (filter (api_mine f) l) (filter (api_mine f) l')).
      { intros f. apply filter_pairs; [|exact O]. intros e e' [E _]. exact (mine_keys f e e' E). }
      cbn [leads]. destruct (look (value k) document_fields) as [f|] eqn:L; [|exact I]. cbn [option_map]. unfold document_fields in L. cbn [look] in L.
      repeat match type of L with (if ?c then _ else _) = _ => destruct c end; try discriminate; injection L as <-; cbn [get_part].
      + exact (in_types k p0 _ _ _ _ _ (O' ATypes) (G ATypes) (G' ATypes)).
      + exact (in_types k p0 _ _ _ _ _ (O' ATypes) (G ATypes) (G' ATypes)).
      + refine (in_plain as_gnode ThUntyped k p0 _ _ _ _ _ _ _ _ (O' ATraits) (G ATraits) (G' ATraits)); reflexivity.
      + refine (in_plain as_gnode ThUntyped k p0 _ _ _ _ _ _ _ _ (O' AResourceTypes) (G AResourceTypes) (G' AResourceTypes)); reflexivity.
      + refine (in_plain as_gnode ThUntyped k p0 _ _ _ _ _ _ _ _ (O' AAnnotationTypes) (G AAnnotationTypes) (G' AAnnotationTypes)); reflexivity.
      + refine (in_plain as_gnode ThUntyped k p0 _ _ _ _ _ _ _ _ (O' ASecuritySchemes) (G ASecuritySchemes) (G' ASecuritySchemes)); reflexivity.
      + refine (in_plain to_str ThStrings k p0 _ _ _ _ _ _ _ _ (O' AUses) (G AUses) (G' AUses)); reflexivity.
      + refine (in_plain as_gnode ThUntyped k p0 _ _ _ _ _ _ _ _ (O' ABaseURIParameters) (G ABaseURIParameters) (G' ABaseURIParameters)); reflexivity.
  Qed.

  (** ** Libraries *)

  Lemma library_look s : s <> "annotationTypes" -> look s lib_keys = look s library_keys.
  Proof. intros N. unfold lib_keys, library_keys. cbn [look]. apply String.eqb_neq in N. rewrite N. reflexivity. Qed.
  Lemma lib_look e f : value (fst e) <> "annotationTypes" -> lib_target e = Some f -> f = library_key (fst e).
  Proof.
    intros N. unfold lib_target, library_key. rewrite (library_look _ N). unfold is_annotation_key. destruct (look (value (fst e)) library_keys) as [g|]; [congruence|].
    destruct (is_string (fst e)); cbn [andb]; [|congruence]. destruct (value (fst e)) as [|c w]; [discriminate|]. destruct (Ascii.eqb c "("); congruence.
  Qed.

  Lemma lib_here k l l' a0 a a' : value k <> "annotationTypes" -> others (eq k) l l' -> fold_res lib_assign a0 l = Ok a -> fold_res lib_assign a0 l' = Ok a' -> lib_but k a a'.
  Proof.
    intros Na O H H'. pose proof (lib_fold l a0 a H) as G. pose proof (lib_fold l' a0 a' H') as G'. split; [|split].
    - intros f Nk. specialize (G f). specialize (G' f). rewrite (filter_others (eq k) (lib_mine f) l l') in G; [congruence| |exact O].
      intros e He. destruct (lib_mine f e) eqn:E; [|reflexivity]. apply mine_target in E. apply lib_look in E; rewrite <- He in E || rewrite <- He; [contradiction|exact Na].
    - specialize (G LAnnotations). specialize (G' LAnnotations). cbn [lget lib_step] in G, G'. revert G G'. apply String.eqb_neq in Na.
      apply (fold_others _ (map_but (eq (value k))) k); [| | |apply others_filter; exact O|apply map_but_refl].
      + intros e s s' s1 s1' R E E'. destruct (String.eqb (value (fst e)) "annotationTypes"); [exact (read_same _ _ _ _ _ _ _ R E E')|].
        apply bind_ok in E as [g [Eg E]]. injection E as <-. rewrite Eg in E'. injection E' as <-. apply mput_but. exact R.
      + intros e s s' s1 Hk R E. rewrite Hk, Na in E. apply bind_ok in E as [g [Eg E]]. injection E as <-. apply mput_old. exact R.
      + intros e s s' s1 Hk R E. rewrite Hk, Na in E. apply bind_ok in E as [g [Eg E]]. injection E as <-. apply map_but_sym, mput_old, map_but_sym. exact R.
    - specialize (G LExtra). specialize (G' LExtra). cbn [lget lib_step] in G, G'. revert G G'. apply extra_fold; [apply others_filter; exact O|apply map_but_refl].
  Qed.

  Lemma lmine_keys f e e' : fst e = fst e' -> lib_mine f e = lib_mine f e'.
  Proof. intros E. unfold lib_mine, mine, lib_target. rewrite E. reflexivity. Qed.

  Lemma lib_apart p n n' a0 a a' : value (hd K p) <> "annotationTypes" -> edited K p n n' -> lib_unmarshal n a0 = Ok a -> lib_unmarshal n' a0 = Ok a' ->
    same_but_at p K (ThLib a) (ThLib a').
  Proof.
    intros Na Ed H H'. inversion Ed as [p0 n0 A1 A2 A3|t l l' O A1 A2 A3|k p0 t l l' O A1 A2 A3]; subst.
    { assert (a' = a) by congruence. subst. apply same_but_refl. reflexivity. }
    { left. exact (lib_here K l l' a0 a a' Na O H H'). }
    cbn [hd] in Na. fold (alike k (edited K p0)) in O. cbn [same_but_at]. split; [|split].
    - exact (lib_here k l l' a0 a a' Na (alike_others (eq k) k _ _ _ eq_refl O) H H').
    - reflexivity.
    - pose proof (lib_fold l a0 a H) as G. pose proof (lib_fold l' a0 a' H') as G'.
      assert (O' : forall f, Forall2 (alike k (edited K p0)) (filter (lib_mine f) l) (filter (lib_mine f) l')).
      { intros f. apply filter_pairs; [|exact O]. intros e e' [E _]. exact (lmine_keys f e e' E). }
      cbn [leads]. destruct (look (value k) document_fields) as [f|] eqn:L; [|exact I]. cbn [option_map]. unfold document_fields in L. cbn [look] in L.
      repeat match type of L with (if ?c then _ else _) = _ => destruct c eqn:? end; try discriminate; injection L as <-; cbn [get_part].
      + exact (in_types k p0 _ _ _ _ _ (O' LTypes) (G LTypes) (G' LTypes)).
      + exact (in_types k p0 _ _ _ _ _ (O' LTypes) (G LTypes) (G' LTypes)).
      + refine (in_plain as_gnode ThUntyped k p0 _ _ _ _ _ _ _ _ (O' LTraits) (G LTraits) (G' LTraits)); reflexivity.
      + refine (in_plain as_gnode ThUntyped k p0 _ _ _ _ _ _ _ _ (O' LResourceTypes) (G LResourceTypes) (G' LResourceTypes)); reflexivity.
      + exfalso. apply Na. apply String.eqb_eq. assumption.
      + refine (in_plain as_gnode ThUntyped k p0 _ _ _ _ _ _ _ _ (O' LSecuritySchemes) (G LSecuritySchemes) (G' LSecuritySchemes)); reflexivity.
      + refine (in_plain to_str ThStrings k p0 _ _ _ _ _ _ _ _ (O' LUses) (G LUses) (G' LUses)); reflexivity.
      + exact I.
  Qed.
End Loaded.
