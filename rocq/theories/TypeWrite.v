(** C27, C33, C39, C40: single facts about reading and writing. *)
From Coq Require Import SpecFloat.
From Verif Require Import Base Num OMap OMapSpec Keys Yaml Values Assign Formats Meta Out Xml Example DataType Marshal
  AssignProofs TypeFacts Fields FieldProofs FacetSpec FacetProofs DocProofs.

(** ** Default() *)

Lemma aims_default d e : aims d FDefault e = false.
Proof.
  unfold aims, target, base_target. destruct d as [b|b x fs c s].
  - match goal with |- context [if ?c then FType else _] => destruct c end; reflexivity.
  - unfold common_target.
    repeat match goal with |- context [if ?c then Some _ else _] => destruct c; [reflexivity|] end.
    destruct (spec_target s (value (fst e))) as [f|] eqn:Ef.
    { destruct s; cbn [spec_target] in Ef;
        repeat match type of Ef with (if ?c then _ else _) = _ => destruct c end; try discriminate;
        injection Ef as <-; reflexivity. }
    unfold ext_target.
    repeat match goal with |- context [if ?c then Some _ else _] => destruct c; [reflexivity|] end.
    destruct (is_string (fst e)); [destruct (value (fst e)) as [|a r]; [reflexivity|]; destruct (Ascii.eqb a "("); [reflexivity|]|];
      match goal with |- context [if ?c then FType else _] => destruct c end; reflexivity.
Qed.

(** Default() is unset after every reading. *)
Lemma default_never_read {F : FloatIO} n d : hat n = Ok d ->
  getf FDefault d = None \/ getf FDefault d = Some (VOptVal None).
Proof.
  assert (Hn : forall k s, getf FDefault (set_schema s (new_type k)) = None \/
                           getf FDefault (set_schema s (new_type k)) = Some (VOptVal None)).
  { intros k s. destruct k; cbn; auto. }
  intros H. destruct (is_string n) eqn:Es.
  - rewrite (hat_string n (value n)) in H.
    + injection H as <-. apply Hn.
    + unfold is_string in Es. split; [destruct (node_tag n); congruence|reflexivity].
  - destruct n as [t v|t l|t l].
    + destruct t; cbn in H, Es; try discriminate. injection H as <-. left; reflexivity.
    + destruct t; cbn in H, Es; discriminate.
    + assert (Ht : t <> TStr) by (intros ->; discriminate).
      destruct (hat_start t l d Ht H) as [sc [_ [Hf [Hs Hd]]]].
      destruct (getf FDefault (set_schema sc (new_type (d_kind d)))) as [old|] eqn:Eo.
      * destruct (fold_fields _ _ _ _ Hf FDefault old Eo) as [v [Hv Hfold]].
        rewrite filter_none in Hfold by (intros; apply aims_default). cbn in Hfold. injection Hfold as <-.
        destruct (Hn (d_kind d) sc) as [E|E]; rewrite E in Eo; [discriminate|]. injection Eo as <-. auto.
      * left. pose proof (fold_kind _ _ _ _ Hf) as [_ S].
        destruct d as [b|b x fs c s]; [reflexivity|].
        destruct (set_schema sc (new_type (d_kind (TExt b x fs c s)))) as [b'|b' x' fs' c' s']; [discriminate S|discriminate Eo].
Qed.

(** ** What the marshal functions put out, as segments *)

Lemma oput_all_fresh {K V} (kf : K -> gkey) (vf : V -> res node) l o :
  NoDup (map fst o ++ map (fun e => kf (fst e)) l) ->
  (forall a b, In a (map fst o ++ map (fun e => kf (fst e)) l) -> In b (map fst o ++ map (fun e => kf (fst e)) l) ->
               gkey_eqb a b = true -> a = b) ->
  oput_all kf vf l o = o ++ map (fun e => (kf (fst e), vf (snd e))) l.
Proof.
  revert o. induction l as [|e l IH]; intros o Hn Hp; simpl; [symmetry; apply app_nil_r|].
  unfold oput_all in *. simpl. unfold oput at 2. rewrite sput_fresh.
  - rewrite IH.
    + rewrite <- app_assoc. reflexivity.
    + rewrite map_app. simpl. rewrite <- app_assoc. exact Hn.
    + intros a b Ha Hb. apply Hp; [rewrite map_app in Ha; simpl in Ha; rewrite <- app_assoc in Ha; exact Ha|].
      rewrite map_app in Hb; simpl in Hb; rewrite <- app_assoc in Hb; exact Hb.
  - intros e' He'. destruct (gkey_eqb (fst e') (kf (fst e))) eqn:E; [|reflexivity].
    assert (fst e' = kf (fst e)).
    { apply Hp; [apply in_or_app; left; apply in_map; exact He'|apply in_or_app; right; left; reflexivity|exact E]. }
    exfalso. simpl in Hn. apply NoDup_remove_2 in Hn. apply Hn. apply in_or_app. left. rewrite <- H.
    apply in_map; exact He'.
Qed.

(** ** Includes *)

Lemma include_whole {F : FloatIO} p :
  exists d, hat (Scal TInclude p) = Ok d /\ d_kind d = TyInclude /\ d_type d = p /\
            to_yaml d = Ok (Scal TInclude p).
Proof. eexists. split; [reflexivity|]. repeat split. Qed.

Lemma include_expanded {F : FloatIO} t pre key val post : t <> TStr -> no_type_key pre ->
  (value key = "type" \/ value key = "schema") -> node_tag val = TInclude ->
  (forall d, hat (Map t (pre ++ (key, val) :: post)) <> Ok d).
Proof.
  intros Ht H1 Hk Hv d H. apply hat_map in H as [d0 [_ H]]; [|exact Ht].
  rewrite fold_res_app in H. apply bind_ok in H as [d1 [_ H]]. cbn in H. apply bind_ok in H as [d2 [H2 _]].
  apply assign_ok in H2 as [f [old [v [T [_ [S _]]]]]].
  pose proof (aims_type d1 (key, val)) as A. cbn [fst] in A. unfold aims in A. cbn [fst] in A. rewrite T in A.
  rewrite (proj2 (is_type_key_iff key) Hk) in A. apply field_eqb_eq in A. subst f. cbn in S.
  apply bind_ok in S as [s [S _]]. apply denotes_string_iff in S as [S _]. congruence.
Qed.

(** ** Properties *)

Lemma property_assign {F : FloatIO} m k v : (exists s, denotes_string k s) ->
  match hat v with
  | Ok (TExt b x f c s) => exists s0, denotes_string k s0 /\
      read_properties hat m (Map TMap [(k, v)]) = Ok (mput s0 (TExt b x f c s) m)
  | Ok (TBase _) => read_properties hat m (Map TMap [(k, v)]) = Panic
  | Err => read_properties hat m (Map TMap [(k, v)]) = Err
  | Panic => read_properties hat m (Map TMap [(k, v)]) = Panic
  end.
Proof.
  intros [s Hk]. assert (E : to_str k = Ok s) by (apply denotes_string_iff; exact Hk).
  unfold read_properties, read_amap, read_amap_pair, map_fold. cbn. rewrite E. cbn.
  destruct (hat v) as [[b|b x f c sp]| |]; cbn; try reflexivity. exists s. split; [exact Hk|reflexivity].
Qed.
