(** Proofs of C98. *)
From Coq Require Import SpecFloat Relations.
From Verif Require Import Base Num OMap OMapSpec Keys Yaml Values Assign Formats Meta Out Xml Example DataType Marshal Doc Api Library
  TypeFacts Fields FieldProofs FacetSpec FacetProofs Segs ExRound TypeSegs WriteSpec WriteProofs ReadInv ApiSpec ApiWrite LibRound WasRead BuildSpec Build Idem Cost SaveCost.
Local Open Scope nat_scope.

Section Ind.
  Variable P : work -> Prop.
  Hypothesis HV : forall r n, P (Value r n).
  Hypothesis HE : forall o l, (forall k w, In (k, w) l -> P w) -> P (Entries o l).
  Hypothesis HP : forall o l, (forall k w, In (k, w) l -> P w) -> P (Puts o l).
  Fixpoint work_ind' (w : work) : P w :=
    let all := fix all (l : list (gkey * work)) : forall k w, In (k, w) l -> P w :=
      match l with
      | [] => fun k w I => match I with end
      | e :: t => fun k w I => match I with
                               | or_introl E => eq_ind (snd e) P (work_ind' (snd e)) w (f_equal snd E)
                               | or_intror J => all t k w J
                               end
      end in
    match w with
    | Value r n => HV r n
    | Entries o l => HE o l (all l)
    | Puts o l => HP o l (all l)
    end.
End Ind.

Lemma total_app a b : total (a ++ b) = total a + total b.
Proof. unfold total in *. induction a as [|x a IH]; cbn; [reflexivity|]. rewrite IH. lia. Qed.
Lemma total_filter {A} (f : A -> bool) (g : A -> nat) l : total (map g (filter f l)) <= total (map g l).
Proof. unfold total in *. induction l as [|a l IH]; cbn; [lia|]. destruct (f a); cbn; lia. Qed.

Section Put.
  Context {V : Type}.
  Implicit Types o l : list (gkey * V).
  Lemma sput_total (g : gkey * V -> nat) k v o : total (map g (sput gkey_eqb k v o)) <= total (map g o) + g (k, v).
  Proof. unfold sput, sdelete. rewrite map_app, total_app. cbn [map]. unfold total at 2. cbn. pose proof (total_filter (other gkey_eqb k) g o). lia. Qed.
  Lemma puts_total (g : gkey * V -> nat) l : forall o, total (map g (fold_left (fun o e => sput gkey_eqb (fst e) (snd e) o) l o)) <= total (map g o) + total (map g l).
  Proof.
    induction l as [|[k v] l IH]; intros o; [cbn [fold_left map]; change (total []) with 0; lia|]. cbn [fold_left map fst snd]. change (total (g (k, v) :: map g l)) with (g (k, v) + total (map g l)). pose proof (IH (sput gkey_eqb k v o)) as H. pose proof (sput_total g k v o). lia.
  Qed.
  Lemma sput_length k v o : List.length (sput gkey_eqb k v o) <= 1 + List.length o.
  Proof. unfold sput, sdelete. rewrite app_length. cbn. assert (X : forall f : gkey * V -> bool, List.length (filter f o) <= List.length o) by (intros f; induction o as [|e o IH]; cbn; [lia|destruct (f e); cbn; lia]). specialize (X (other gkey_eqb k)). lia. Qed.
  Lemma put_looks_high l : forall o, put_looks o l <= List.length l * (1 + List.length o + List.length l).
  Proof.
    induction l as [|[k v] l IH]; intros o; cbn [put_looks List.length fst snd]; [lia|]. pose proof (IH (sput gkey_eqb k v o)) as H. pose proof (sput_length k v o) as L.
    assert (C : put_cost gkey_eqb k (mkMap o false) <= List.length o) by (unfold put_cost; cbn [ents]; destruct (shas gkey_eqb k o); lia). nia.
  Qed.
  Lemma put_looks_clear l : forall o, apart (map fst o ++ map fst l) = true -> put_looks o l = List.length l.
  Proof.
    induction l as [|[k v] l IH]; intros o H; cbn [put_looks List.length fst snd]; [reflexivity|].
    pose proof H as H0. apply apart_app in H as [_ [_ H]].
    assert (N : forall e, In e o -> gkey_eqb (fst e) k = false) by (intros e I; apply H; [apply in_map; exact I|left; reflexivity]).
    assert (C : shas gkey_eqb k o = false).
    { unfold shas. apply not_true_is_false. intros X. apply existsb_exists in X as [e [I X]]. rewrite (N e I) in X. discriminate X. }
    unfold put_cost. cbn [ents]. rewrite C. rewrite IH; [reflexivity|]. rewrite (sput_fresh gkey_eqb k v o N), map_app, <- app_assoc. exact H0.
  Qed.
  Lemma puts_clear l : forall o, apart (map fst o ++ map fst l) = true -> fold_left (fun o e => sput gkey_eqb (fst e) (snd e) o) l o = o ++ l.
  Proof.
    induction l as [|[k v] l IH]; intros o H; cbn [fold_left fst snd]; [rewrite app_nil_r; reflexivity|].
    pose proof H as H0. apply apart_app in H as [_ [_ H]].
    assert (N : forall e, In e o -> gkey_eqb (fst e) k = false) by (intros e I; apply H; [apply in_map; exact I|left; reflexivity]).
    rewrite (sput_fresh gkey_eqb k v o N). rewrite IH; [rewrite <- app_assoc; reflexivity|]. rewrite map_app, <- app_assoc. exact H0.
  Qed.
End Put.

Lemma total_scale {A} (f g : A -> nat) l : (forall a, In a l -> f a <= g a) -> total (map f l) <= total (map g l).
Proof. unfold total in *. induction l as [|a l IH]; intros H; cbn; [lia|]. pose proof (H a (or_introl eq_refl)). pose proof (IH (fun b I => H b (or_intror I))). lia. Qed.
Lemma total_cons x l : total (x :: l) = x + total l.
Proof. reflexivity. Qed.
Lemma total_double {A} (g : A -> nat) l : total (map (fun a => 2 * g a) l) = 2 * total (map g l).
Proof. induction l as [|a l IH]; [reflexivity|]. cbn [map]. rewrite !total_cons, IH. lia. Qed.
Lemma total_square {A} (g : A -> nat) l : total (map (fun a => g a * g a) l) <= total (map g l) * total (map g l).
Proof. induction l as [|a l IH]; [reflexivity|]. cbn [map]. rewrite !total_cons. nia. Qed.
Lemma total_ones {A} (g : A -> nat) l : total (map (fun a => 1 + g a) l) = List.length l + total (map g l).
Proof. induction l as [|a l IH]; [reflexivity|]. cbn [map List.length]. rewrite !total_cons, IH. lia. Qed.

Lemma looks_square w : looks w <= size w * size w.
Proof.
  induction w as [r n|o l IH|o l IH] using work_ind'.
  - cbn. nia.
  - cbn [looks size]. rewrite !total_ones. assert (H : total (map (fun e => looks (snd e)) l) <= total (map (fun e => size (snd e) * size (snd e)) l)) by (apply total_scale; intros [k w] I; exact (IH k w I)).
    pose proof (total_square (fun e : gkey * work => size (snd e)) l). nia.
  - cbn [looks size]. set (p := map (fun e => (fst e, looks (snd e))) l).
    pose proof (put_looks_high p []) as H1. pose proof (puts_total (fun e => 1 + snd e) p []) as H2. cbn [map total fold_right] in H2.
    assert (L : List.length p = List.length l) by (unfold p; apply map_length). assert (E : total (map (fun e : gkey * nat => 1 + snd e) p) = List.length l + total (map (fun e => looks (snd e)) l)).
    { unfold p. rewrite map_map. cbn [snd]. apply (total_ones (fun e : gkey * work => looks (snd e))). }
    assert (H : total (map (fun e => looks (snd e)) l) <= total (map (fun e => size (snd e) * size (snd e)) l)) by (apply total_scale; intros [k w] I; exact (IH k w I)).
    pose proof (total_square (fun e : gkey * work => size (snd e)) l). rewrite (total_ones (fun e : gkey * work => size (snd e)) l). cbn [List.length] in H1. rewrite E in H2. rewrite L in H1. 
    set (s := total (map (fun e : gkey * work => size (snd e)) l)) in *. nia.
Qed.

Lemma looks_clear w : clear w -> looks w <= 2 * size w.
Proof.
  intros C. induction C as [r n|o l _ IH|o l A _ IH].
  - cbn. lia.
  - cbn [looks size]. rewrite !total_ones. assert (H : total (map (fun e => looks (snd e)) l) <= total (map (fun e => 2 * size (snd e)) l)) by (apply total_scale; intros [k w] I; exact (IH k w I)).
    rewrite (total_double (fun e : gkey * work => size (snd e))) in H. lia.
  - cbn [looks size]. set (p := map (fun e => (fst e, looks (snd e))) l).
    assert (H1 : put_looks [] p = List.length l). { rewrite put_looks_clear; [unfold p; apply map_length|]. cbn [map app]. unfold p. rewrite map_map. exact A. }
    pose proof (puts_total (fun e => 1 + snd e) p []) as H2. cbn [map total fold_right] in H2.
    assert (E : total (map (fun e : gkey * nat => 1 + snd e) p) = List.length l + total (map (fun e => looks (snd e)) l)).
    { unfold p. rewrite map_map. cbn [snd]. apply (total_ones (fun e : gkey * work => looks (snd e))). }
    assert (H : total (map (fun e => looks (snd e)) l) <= total (map (fun e => 2 * size (snd e)) l)) by (apply total_scale; intros [k w] I; exact (IH k w I)).
    rewrite (total_double (fun e : gkey * work => size (snd e))) in H. rewrite (total_ones (fun e : gkey * work => size (snd e)) l). rewrite H1. rewrite E in H2. lia.
Qed.

(** The other way round: everything is looked at. *)
Lemma looks_clear_low w : clear w -> size w <= 1 + 2 * looks w.
Proof.
  intros C. induction C as [r n|o l _ IH|o l A _ IH].
  - cbn. lia.
  - cbn [looks size]. rewrite !total_ones.
    assert (H : total (map (fun e => size (snd e)) l) <= total (map (fun e : gkey * work => 1 + 2 * looks (snd e)) l)) by (apply total_scale; intros [k w] I; exact (IH k w I)).
    rewrite (total_ones (fun e : gkey * work => 2 * looks (snd e))), (total_double (fun e : gkey * work => looks (snd e))) in H. lia.
  - cbn [looks size]. set (p := map (fun e => (fst e, looks (snd e))) l).
    assert (Ap : apart (map fst (@nil (gkey * nat)) ++ map fst p) = true) by (cbn [map app]; unfold p; rewrite map_map; exact A).
    rewrite (put_looks_clear p [] Ap), (puts_clear p [] Ap). cbn [app].
    assert (E : total (map (fun e : gkey * nat => 1 + snd e) p) = List.length l + total (map (fun e => looks (snd e)) l)).
    { unfold p. rewrite map_map. cbn [snd]. apply (total_ones (fun e : gkey * work => looks (snd e))). }
    assert (L : List.length p = List.length l) by (unfold p; apply map_length).
    assert (H : total (map (fun e => size (snd e)) l) <= total (map (fun e : gkey * work => 1 + 2 * looks (snd e)) l)) by (apply total_scale; intros [k w] I; exact (IH k w I)).
    rewrite (total_ones (fun e : gkey * work => 2 * looks (snd e))), (total_double (fun e : gkey * work => looks (snd e))) in H.
    rewrite (total_ones (fun e : gkey * work => size (snd e)) l). lia.
Qed.

(** ** It is what the code does *)

Section Code.
  Context {F : FloatIO}.

  Definition outs (l : list (gkey * work)) : outm := map (fun e => (fst e, result (snd e))) l.
  Lemma outs_app a b : outs (a ++ b) = outs a ++ outs b.
  Proof. apply map_app. Qed.
  Lemma outs_opt {A} k (f : A -> work) (g : A -> res node) o : (forall x, o = Some x -> result (f x) = g x) -> outs (put_opt k (option_map f o)) = opt_seg k (option_map g o).
  Proof. intros H. destruct o as [x|]; [cbn; rewrite (H x eq_refl)|]; reflexivity. Qed.
  Lemma outs_if c k w r : result w = r -> outs (put_if c k w) = if_seg c k r.
  Proof. intros <-. destruct c; reflexivity. Qed.
  Lemma outs_each {K V} (kf : K -> gkey) (vf : V -> work) (rf : V -> res node) l : (forall k v, In (k, v) l -> result (vf v) = rf v) -> outs (put_each kf vf l) = all_seg kf rf l.
  Proof.
    intros H. unfold outs, put_each, all_seg. rewrite map_map. apply map_ext_in. intros [k v] I. cbn. rewrite (H k v I). reflexivity.
  Qed.
  Lemma puts_outs l o : fold_left (fun o e => oput (fst e) (result (snd e)) o) l o = puts_all (outs l) o.
  Proof. revert o. induction l as [|e l IH]; intros o; [reflexivity|]. cbn. apply IH. Qed.
  Lemma map_result {V} (vf : V -> work) (rf : V -> res node) (m : amap string V) : (forall k v, In (k, v) (ents m) -> result (vf v) = rf v) -> result (map_work vf m) = map_to_yaml skey_node rf m.
  Proof.
    intros H. destruct m as [l o]. unfold map_work. cbn [result ents oord]. unfold map_to_yaml. cbn [oord ents] in *.
    assert (E : forall B (g : gkey * work -> res B) (h : string * V -> res B), (forall e, In e l -> g (KStr (fst e), vf (snd e)) = h e) ->
              map_res g (map (fun e => (KStr (fst e), vf (snd e))) l) = map_res h l).
    { intros B g h Hg. clear H. induction l as [|e l IH]; [reflexivity|]. cbn. rewrite (Hg e (or_introl eq_refl)). destruct (h e); [|reflexivity|reflexivity]. cbn. rewrite IH; [reflexivity|]. intros x I. apply Hg. right. exact I. }
    assert (E1 : forall e, In e l -> entry_node key_node (fun w => result w) (KStr (fst e), vf (snd e)) = entry_node skey_node rf e).
    { intros [k v] I. unfold entry_node. cbn. rewrite (H k v I). reflexivity. }
    destruct o.
    - rewrite (E _ _ (fun e => do p <- entry_node skey_node rf e; Ok (Map TMap [p]))); [reflexivity|]. intros e I. cbn beta. rewrite (E1 e I). reflexivity.
    - rewrite (E _ _ (entry_node skey_node rf)); [reflexivity|]. exact E1.
  Qed.
  Lemma untyped_result m : result (untyped_work m) = untyped_to_yaml m.
  Proof. apply (map_result val_work to_node). reflexivity. Qed.

  Lemma ex_result e : result (ex_work e) = ex_to_yaml e.
  Proof.
    unfold ex_work, ex_to_yaml. cbn [result]. rewrite puts_outs. f_equal. unfold ex_puts, ex_marshal. destruct (ex_expand e); cbn [fst].
    - rewrite !oput_opt_puts, !oput_if_puts, !oput_all_puts, !outs_app, !puts_all_app.
      rewrite (outs_opt _ str_work (fun s => Ok (str_node s))) by reflexivity. rewrite (outs_opt _ str_work (fun s => Ok (str_node s))) by reflexivity. rewrite (outs_opt _ val_work to_node) by reflexivity.
      rewrite (outs_if _ _ _ (Ok (bool_node (ex_strict e)))) by reflexivity. rewrite (outs_each _ _ untyped_to_yaml) by (intros; apply untyped_result). rewrite (outs_each _ val_work to_node) by reflexivity. reflexivity.
    - destruct (ex_value e); reflexivity.
  Qed.

  Lemma spec_outs s : spec_all (fun d => result (type_work d) = to_yaml d) s -> outs (spec_puts type_work s) = spec_segs to_yaml s.
  Proof.
    intros H. destruct s as [|u mn mx it|fm|ft mn mx|fm mn mx mu|fm mn mx mu|ps mn mx ad di dv|p mn mx]; cbn [spec_puts spec_segs]; rewrite ?outs_app.
    - reflexivity.
    - rewrite (outs_opt _ type_work to_yaml); [|intros t ->; exact H]. rewrite !(outs_if _ _ _ _ eq_refl). reflexivity.
    - rewrite (outs_opt _ str_work (fun s => Ok (str_node s))) by reflexivity. reflexivity.
    - rewrite (outs_opt _ strings_work (fun l => Ok (Seq TSeq (map str_node l)))) by reflexivity. rewrite !(outs_if _ _ _ _ eq_refl). reflexivity.
    - rewrite (outs_opt _ str_work (fun s => Ok (str_node s))) by reflexivity. rewrite !(outs_opt _ int_work (fun s => Ok (int_node s))) by reflexivity. rewrite (outs_opt _ float_work (fun s => Ok (float_node s))) by reflexivity. reflexivity.
    - rewrite (outs_opt _ str_work (fun s => Ok (str_node s))) by reflexivity. rewrite !(outs_opt _ float_work (fun s => Ok (float_node s))) by reflexivity. reflexivity.
    - rewrite !(outs_opt _ int_work (fun s => Ok (int_node s))) by reflexivity. rewrite (outs_opt _ str_work (fun s => Ok (str_node s))) by reflexivity. rewrite (outs_opt _ val_work to_node) by reflexivity.
      rewrite (outs_if (nonempty ps) _ (map_work type_work ps) (types_to_yaml to_yaml ps)). 2:{ apply map_result. intros k v I. cbn in H. rewrite Forall_forall in H. exact (H (k, v) I). }
      rewrite !(outs_if _ _ _ _ eq_refl). reflexivity.
    - rewrite (outs_opt _ str_work (fun s => Ok (str_node s))) by reflexivity. rewrite (outs_opt _ int_work (fun s => Ok (int_node s))) by reflexivity. rewrite !(outs_if _ _ _ _ eq_refl). reflexivity.
  Qed.

  Definition ext_segs (b : base) (x : ext) (f : amap string (amap string dtype)) (c : common) (s : spec dtype) : outm :=
    opt_seg "default" (option_map to_node (c_def c)) ++ opt_seg "displayName" (str_opt (x_display x)) ++ opt_seg "description" (str_opt (x_descr x)) ++
    [(KStr "type", Ok (str_node (b_schema b)))] ++ extra_segs b ++
    if_seg (negb (x_required x)) "required" (Ok (bool_node (x_required x))) ++ all_seg KStr untyped_to_yaml (ents (x_anns x)) ++
    tail_segs to_yaml (TExt b x f c s).

  Lemma ext_outs b x f c s : facets_all (fun d => result (type_work d) = to_yaml d) f -> spec_all (fun d => result (type_work d) = to_yaml d) s ->
    outs (type_puts type_work (TExt b x f c s)) = ext_segs b x f c s.
  Proof.
    intros Hf Hs. unfold type_puts, ext_puts, base_puts, ext_segs. cbn [tail_segs]. rewrite !outs_app, (spec_outs s Hs).
    rewrite !(outs_opt _ val_work to_node) by reflexivity. rewrite !(outs_opt _ str_work (fun s => Ok (str_node s))) by reflexivity.
    rewrite (outs_each (fun k => k) val_work to_node) by reflexivity. rewrite (outs_each KStr untyped_work untyped_to_yaml) by (intros; apply untyped_result).
    rewrite (outs_if (nonempty f) _ _ (facets_to_yaml to_yaml f)).
    2:{ apply map_result. intros k m I. apply map_result. intros k' t J. unfold facets_all in Hf. rewrite Forall_forall in Hf. specialize (Hf (k, m) I). cbn in Hf. rewrite Forall_forall in Hf. exact (Hf (k', t) J). }
    rewrite (outs_opt _ (fun x => Value (xml_node x) 0) xml_node) by reflexivity. rewrite (outs_opt _ (fun l => val_work (GList l)) (fun l => to_node (GList l))) by reflexivity.
    rewrite (outs_opt _ ex_work ex_to_yaml) by (intros; apply ex_result).
    rewrite (outs_if (nonempty (c_examples c)) _ _ (examples_to_yaml (c_examples c))) by (apply map_result; intros; apply ex_result).
    rewrite (outs_if (negb (x_required x)) _ (bool_work (x_required x)) (Ok (bool_node (x_required x)))) by reflexivity. unfold extra_segs, str_opt. rewrite <- !app_assoc. reflexivity.
  Qed.

  Lemma type_result d : result (type_work d) = to_yaml d.
  Proof.
    induction d as [b|b x f c s Hf Hs] using dtype_ind'; rewrite to_yaml_eq; unfold to_yaml_body.
    - change (type_work (TBase b)) with (Puts true (type_puts type_work (TBase b))). cbn [result]. rewrite puts_outs. f_equal. cbn [type_marshal]. unfold type_puts, base_puts. rewrite outs_app.
      rewrite (outs_each (fun k => k) val_work to_node) by reflexivity. rewrite puts_all_app. unfold short_marshal, base_marshal, include_marshal. rewrite !oput_all_puts. destruct (b_kind b); reflexivity.
    - change (type_work (TExt b x f c s)) with (Puts true (type_puts type_work (TExt b x f c s))). cbn [result]. rewrite puts_outs, (ext_outs b x f c s Hf Hs). f_equal.
      cbn [type_marshal]. unfold full_marshal, ext_marshal, base_marshal, ext_segs. cbn [tail_segs]. rewrite (spec_marshal_segs to_yaml s).
      rewrite !oput_opt_puts, !oput_if_puts, !oput_all_puts, oput_puts. rewrite !puts_all_app. reflexivity.
  Qed.

  Lemma type_outs d : shaped d -> outs (type_puts type_work d) = segs to_yaml d.
  Proof.
    intros H. destruct d as [b|b x f c s].
    - unfold segs, type_puts, base_puts. rewrite outs_app. rewrite (outs_each (fun k => k) val_work to_node) by reflexivity. cbn [head_segs required_seg ann_segs tail_segs app d_base]. rewrite !app_nil_r. unfold type_node. destruct (b_kind b); reflexivity.
    - rewrite ext_outs.
      + unfold ext_segs, segs. cbn [head_segs required_seg ann_segs d_base]. rewrite <- !app_assoc. unfold type_node. apply (shaped_cases b x f c s) in H as [_ [H _]]. destruct (b_kind b); try reflexivity. discriminate H || congruence || tauto.
      + unfold facets_all. apply Forall_forall. intros e _. apply Forall_forall. intros e' _. apply type_result.
      + destruct s as [|? ? ? [t|]| | | | | |]; cbn; auto using type_result. apply Forall_forall. intros e _. apply type_result.
  Qed.

  Lemma api_result a : result (api_work a) = api_marshal a.
  Proof.
    unfold api_work, api_marshal. cbn [result]. rewrite puts_outs. f_equal. unfold api_puts, api_out. rewrite !oput_opt_puts, !oput_if_puts, !oput_all_puts, !outs_app, !puts_all_app.
    rewrite !(outs_opt _ str_work (fun s => Ok (str_node s))) by reflexivity. rewrite !(outs_opt _ strings_work strings_node) by reflexivity.
    rewrite (outs_opt _ (fun l => Value (docs_node l) (List.length l)) docs_node) by reflexivity.
    rewrite !(outs_if _ _ (untyped_work _) _ (untyped_result _)). rewrite (outs_if _ _ (map_work str_work (a_uses a)) (string_map_node (a_uses a))) by (apply map_result; reflexivity).
    rewrite (outs_each KStr untyped_work untyped_to_yaml) by (intros; apply untyped_result). rewrite (outs_each (fun k => k) val_work to_node) by reflexivity. rewrite (outs_each KStr val_work to_node) by reflexivity.
    rewrite (outs_if _ _ (map_work type_work (a_types a)) (types_to_yaml to_yaml (a_types a))) by (apply map_result; intros; apply type_result). reflexivity.
  Qed.
  Lemma lib_result a : result (lib_work a) = lib_marshal a.
  Proof.
    unfold lib_work, lib_marshal. cbn [result]. rewrite puts_outs. f_equal. unfold lib_puts, lib_out. rewrite !oput_opt_puts, !oput_if_puts, !oput_all_puts, !outs_app, !puts_all_app.
    rewrite !(outs_opt _ str_work (fun s => Ok (str_node s))) by reflexivity.
    rewrite !(outs_if _ _ (untyped_work _) _ (untyped_result _)). rewrite (outs_if _ _ (map_work str_work (l_uses a)) (string_map_node (l_uses a))) by (apply map_result; reflexivity).
    rewrite (outs_each KStr untyped_work untyped_to_yaml) by (intros; apply untyped_result). rewrite (outs_each (fun k => k) val_work to_node) by reflexivity.
    rewrite (outs_if _ _ (map_work type_work (l_types a)) (types_to_yaml to_yaml (l_types a))) by (apply map_result; intros; apply type_result). reflexivity.
  Qed.

  (** ** What was loaded *)

  Definition clears (l : list (gkey * work)) : Prop := Forall (fun e => clear (snd e)) l.
  Lemma clears_puts o l : apart (map fst l) = true -> clears l -> clear (Puts o l).
  Proof. intros A C. constructor; [exact A|]. intros k w I. unfold clears in C. rewrite Forall_forall in C. exact (C (k, w) I). Qed.
  Lemma clears_app a b : clears a -> clears b -> clears (a ++ b).
  Proof. intros A B. apply Forall_app. split; assumption. Qed.
  Lemma clears_opt {A} k (f : A -> work) o : (forall x, o = Some x -> clear (f x)) -> clears (put_opt k (option_map f o)).
  Proof. intros H. destruct o as [x|]; [constructor; [exact (H x eq_refl)|constructor]|constructor]. Qed.
  Lemma clears_if c k w : clear w -> clears (put_if c k w).
  Proof. intros H. destruct c; [constructor; [exact H|constructor]|constructor]. Qed.
  Lemma clears_each {K V} (kf : K -> gkey) (vf : V -> work) l : (forall v, clear (vf v)) -> clears (put_each kf vf l).
  Proof. intros H. unfold clears, put_each. apply Forall_map. apply Forall_forall. intros e _. cbn. apply H. Qed.
  Lemma map_clear {V} (vf : V -> work) m : (forall k v, In (k, v) (ents m) -> clear (vf v)) -> clear (map_work vf m).
  Proof. intros H. constructor. intros k w I. apply in_map_iff in I as [[s v] [E I]]. injection E as _ <-. exact (H s v I). Qed.
  Lemma val_clear v : clear (val_work v).
  Proof. constructor. Qed.
  Lemma untyped_clear m : clear (untyped_work m).
  Proof. apply map_clear. intros k v _. constructor. Qed.
  Ltac clr := repeat (apply clears_app); try solve [apply clears_opt; intros; apply clear_value]; try solve [apply clears_if; apply clear_value];
    try solve [apply clears_each; intros; first [apply untyped_clear|apply clear_value]]; try solve [apply clears_if; apply untyped_clear].

  Lemma ex_clear e : apart (map fst (ex_segs e)) = true -> clear (ex_work e).
  Proof.
    intros A. unfold ex_work. apply clears_puts.
    - unfold ex_puts. destruct (ex_expand e); [|reflexivity]. etransitivity; [|exact A]. f_equal. unfold ex_segs. rewrite !map_app. unfold put_each, all_seg. rewrite !map_map.
      destruct (ex_display e), (ex_descr e), (ex_value e), (ex_strict e); reflexivity.
    - unfold ex_puts. destruct (ex_expand e).
      + clr.
      + constructor; [destruct (ex_value e); constructor|constructor].
  Qed.

  Lemma type_clear d : tidy d -> (forall t, inside t d -> clear (type_work t)) ->
    (forall e, getf FExample d = Some (VEx (Some e)) -> clear (ex_work e)) -> (forall m s e, getf FExamples d = Some (VExs m) -> In (s, e) (ents m) -> clear (ex_work e)) -> clear (type_work d).
  Proof.
    intros T I0 E1 E2. pose proof (tidy_apart d T) as A. destruct T as [S [Z _]]. rewrite <- (segs_keys to_yaml d S Z), <- (type_outs d S) in A. unfold outs in A. rewrite map_map in A. cbn [fst] in A.
    destruct d as [b|b x f c s].
    - change (type_work (TBase b)) with (Puts true (type_puts type_work (TBase b))). apply clears_puts; [exact A|]. unfold type_puts, base_puts. clr. constructor; [constructor|constructor].
    - change (type_work (TExt b x f c s)) with (Puts true (type_puts type_work (TExt b x f c s))). apply clears_puts; [exact A|]. clear A S Z. unfold type_puts, ext_puts, base_puts. clr.
      + constructor; [constructor|constructor].
      + apply clears_if. apply map_clear. intros k m I. apply map_clear. intros k' t J. apply I0. exact (inside_facets t (TExt b x f c s) f k m k' eq_refl I J).
      + destruct s as [|u mn mx it|fm|ft mn mx|fm mn mx mu|fm mn mx mu|ps mn mx ad di dv|p mn mx]; cbn [spec_puts]; clr.
        * constructor.
        * apply clears_opt. intros t ->. apply I0. exact (inside_items t (TExt b x f c (SArray u mn mx (Some t))) eq_refl).
        * apply clears_if. apply map_clear. intros k t I. apply I0. exact (inside_properties t (TExt b x f c (SObject ps mn mx ad di dv)) ps k eq_refl I).
      + apply clears_opt. intros e H. apply E1. cbn. rewrite H. reflexivity.
      + apply clears_if. apply map_clear. intros k e I. exact (E2 (c_examples c) k e eq_refl I).
  Qed.

  Lemma loaded_clear n : forall d, hat n = Ok d -> (forall t, anywhere_in t d -> no_clash t) -> clear (type_work d).
  Proof.
    induction n as [n IH] using node_strong_ind. intros d H N. pose proof (hat_read n d H) as R.
    assert (Up : forall t, inside t d -> (exists n', node_size n' < node_size n /\ hat n' = Ok t) -> clear (type_work t)).
    { intros t I [n' [L H']]. apply (IH n' L t H'). intros u Iu. apply N. apply rt_trans with t; [exact Iu|apply rt_step; exact I]. }
    apply type_clear.
    - apply (read_tidy_apart n d H). apply N. apply rt_refl.
    - intros t I. apply (Up t I). destruct I as [d G|d m k G J|d m k m' k' G J J'].
      + exact (R _ _ G).
      + destruct (R _ _ G) as [_ [_ Q]]. exact (proj1 (Q k t J)).
      + destruct (R _ _ G) as [_ [_ Q]]. destruct (Q k m' J) as [_ [_ Q']]. exact (Q' k' t J').
    - intros e G. destruct (R _ _ G) as [_ [n' He]]. apply ex_clear. exact (ex_segs_apart_read _ _ _ He).
    - intros m s e G I. destruct (R _ _ G) as [_ [_ Q]]. destruct (Q s e I) as [n' He]. apply ex_clear. exact (ex_segs_apart_read _ _ _ He).
  Qed.

  Lemma api_outs a : outs (api_puts a) = flat_map (api_seg a) api_order.
  Proof.
    unfold api_puts. cbn [api_order flat_map api_seg]. rewrite !outs_app.
    rewrite !(outs_opt _ str_work (fun s => Ok (str_node s))) by reflexivity. rewrite !(outs_opt _ strings_work strings_node) by reflexivity.
    rewrite (outs_opt _ (fun l => Value (docs_node l) (List.length l)) docs_node) by reflexivity.
    rewrite !(outs_if _ _ (untyped_work _) _ (untyped_result _)). rewrite (outs_if _ _ (map_work str_work (a_uses a)) (string_map_node (a_uses a))) by (apply map_result; reflexivity).
    rewrite (outs_each KStr untyped_work untyped_to_yaml) by (intros; apply untyped_result). rewrite (outs_each (fun k => k) val_work to_node) by reflexivity. rewrite (outs_each KStr val_work to_node) by reflexivity.
    rewrite (outs_if _ _ (map_work type_work (a_types a)) (types_to_yaml to_yaml (a_types a))) by (apply map_result; intros; apply type_result). rewrite app_nil_r. reflexivity.
  Qed.
  Lemma api_put_keys a : map fst (api_puts a) = flat_map (api_field_keys a) api_order.
  Proof.
    rewrite <- (flat_map_ext _ _ (api_seg_keys a)). assert (E : map fst (outs (api_puts a)) = map fst (api_puts a)) by (unfold outs; rewrite map_map; reflexivity).
    rewrite <- E, api_outs. clear E. generalize api_order. induction l as [|f l IH]; [reflexivity|]. cbn. rewrite map_app, IH. reflexivity.
  Qed.
  Lemma lib_outs a : outs (lib_puts a) = flat_map (lib_seg a) lib_order.
  Proof.
    unfold lib_puts. cbn [lib_order flat_map lib_seg]. rewrite !outs_app.
    rewrite !(outs_opt _ str_work (fun s => Ok (str_node s))) by reflexivity.
    rewrite !(outs_if _ _ (untyped_work _) _ (untyped_result _)). rewrite (outs_if _ _ (map_work str_work (l_uses a)) (string_map_node (l_uses a))) by (apply map_result; reflexivity).
    rewrite (outs_each KStr untyped_work untyped_to_yaml) by (intros; apply untyped_result). rewrite (outs_each (fun k => k) val_work to_node) by reflexivity.
    rewrite (outs_if _ _ (map_work type_work (l_types a)) (types_to_yaml to_yaml (l_types a))) by (apply map_result; intros; apply type_result). rewrite app_nil_r. reflexivity.
  Qed.
  Lemma lib_put_keys a : map fst (lib_puts a) = flat_map (lib_field_keys a) lib_order.
  Proof.
    rewrite <- (flat_map_ext _ _ (lib_seg_keys a)). assert (E : map fst (outs (lib_puts a)) = map fst (lib_puts a)) by (unfold outs; rewrite map_map; reflexivity).
    rewrite <- E, lib_outs. clear E. generalize lib_order. induction l as [|f l IH]; [reflexivity|]. cbn. rewrite map_app, IH. reflexivity.
  Qed.

  Lemma api_clear a : apart (flat_map (api_field_keys a) api_order) = true -> (forall k t, In (k, t) (ents (a_types a)) -> clear (type_work t)) -> clear (api_work a).
  Proof.
    intros A T. unfold api_work. apply clears_puts; [rewrite api_put_keys; exact A|]. unfold api_puts. clr.
    - constructor; [constructor|constructor].
    - apply clears_if. apply map_clear. intros. constructor.
    - apply clears_if. apply map_clear. exact T.
  Qed.
  Lemma lib_clear a : apart (flat_map (lib_field_keys a) lib_order) = true -> (forall k t, In (k, t) (ents (l_types a)) -> clear (type_work t)) -> clear (lib_work a).
  Proof.
    intros A T. unfold lib_work. apply clears_puts; [rewrite lib_put_keys; exact A|]. unfold lib_puts. clr.
    - apply clears_if. apply map_clear. intros. constructor.
    - apply clears_if. apply map_clear. exact T.
  Qed.

  Lemma api_types_loaded n a : api_unmarshal n new_api = Ok a -> forall k t, In (k, t) (ents (a_types a)) -> exists n', hat n' = Ok t.
  Proof.
    intros H. assert (O : Build.api_once a).
    { unfold api_unmarshal, map_fold in H. destruct n as [| |t l]; try discriminate H. revert H. assert (O0 : Build.api_once new_api) by (unfold Build.api_once; repeat (split; [apply once_new|]); reflexivity). revert O0. generalize new_api as a0.
      induction l as [|e l IH]; intros a0 O0 H; cbn in H; [injection H as <-; exact O0|]. destruct (api_assign a0 e) as [a1| |] eqn:E; try discriminate H. cbn in H. exact (IH a1 (api_assign_once a0 e a1 E O0) H). }
    destruct O as [_ [_ [_ [_ [_ [_ [_ [_ [[_ O] _]]]]]]]]]. exact O.
  Qed.
  Lemma lib_types_loaded n a : lib_unmarshal n new_library = Ok a -> forall k t, In (k, t) (ents (l_types a)) -> exists n', hat n' = Ok t.
  Proof.
    intros H. assert (O : Build.lib_once a).
    { unfold lib_unmarshal, map_fold in H. destruct n as [| |t l]; try discriminate H. revert H. assert (O0 : Build.lib_once new_library) by (unfold Build.lib_once; repeat (split; [apply once_new|]); reflexivity). revert O0. generalize new_library as a0.
      induction l as [|e l IH]; intros a0 O0 H; cbn in H; [injection H as <-; exact O0|]. destruct (lib_assign a0 e) as [a1| |] eqn:E; try discriminate H. cbn in H. exact (IH a1 (lib_assign_once a0 e a1 E O0) H). }
    destruct O as [_ [_ [_ [_ [_ [_ [[_ O] _]]]]]]]. exact O.
  Qed.
End Code.
