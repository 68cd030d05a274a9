(** C38: examples written and read. *)
From Coq Require Import SpecFloat.
From Verif Require Import Base Num OMap OMapSpec Keys Yaml Values Assign Formats Meta Out Xml Example DataType Marshal
  AssignProofs TypeFacts Fields FieldProofs FacetSpec FacetProofs DocProofs OrderProofs PathProofs Segs ExProofs Same.

(** ** Maps *)

Lemma write_read_amap {V} (dec : node -> res V) (vn : V -> res node) (R : V -> V -> Prop) b (m : amap string V) n :
  oord m = false -> NoDup (map fst (ents m)) ->
  (forall k v nv, In (k, v) (ents m) -> vn v = Ok nv -> exists v', dec nv = Ok v' /\ R v v') ->
  map_to_yaml skey_node vn m = Ok n ->
  exists l, read_amap dec (mkMap [] b) n = Ok (mkMap l b) /\ Forall2 (same_entry R) (ents m) l.
Proof.
  intros Ho Hn Hd Hw. unfold map_to_yaml in Hw. rewrite Ho in Hw. apply bind_ok in Hw as [l0 [Hl E]]. injection E as <-.
  apply map_res_entries in Hl. unfold read_amap, map_fold.
  assert (G : forall pre es l0, Forall2 (fun e p => skey_node (fst e) = Ok (fst p) /\ vn (snd e) = Ok (snd p)) es l0 ->
    (forall k v nv, In (k, v) es -> vn v = Ok nv -> exists v', dec nv = Ok v' /\ R v v') ->
    NoDup (map fst (pre ++ es)) ->
    exists l, fold_res (read_amap_pair dec) (mkMap pre b) l0 = Ok (mkMap (pre ++ l) b) /\ Forall2 (same_entry R) es l).
  { intros pre es. revert pre. induction es as [|[k v] es IH]; intros pre q Hq Hd' Hn'; inversion Hq as [|x y xs ys [H1 H2] H3]; subst.
    - exists []. cbn. rewrite app_nil_r. split; [reflexivity|constructor].
    - cbn in H1, H2. injection H1 as H1. destruct y as [yk yv]. cbn in H1, H2. subst yk.
      destruct (Hd' k v yv (or_introl eq_refl) H2) as [v' [Dv Rv]].
      destruct (IH (pre ++ [(k, v')]) ys H3) as [l [Hf Hl']].
      + intros; eapply Hd'; [right|]; eassumption.
      + rewrite <- app_assoc, map_app in *. cbn in *. exact Hn'.
      + exists ((k, v') :: l). split.
        * cbn. unfold read_amap_pair. cbn. rewrite Dv. cbn. rewrite mput_fresh.
          -- fold (@read_amap_pair V dec). rewrite Hf, <- app_assoc. reflexivity.
          -- rewrite map_app in Hn'. cbn in Hn'. intros Hi. apply NoDup_remove_2 in Hn'. apply Hn', in_or_app. auto.
        * constructor; [split; [reflexivity|exact Rv]|exact Hl']. }
  exact (G [] (ents m) l0 Hl Hd Hn).
Qed.

(** An annotation in the form that is written as a mapping. *)
Definition ann_returns {F : FloatIO} (a : untyped) : Prop :=
  oord a = false /\ NoDup (map fst (ents a)) /\ Forall (fun e => exists n, to_node (snd e) = Ok n) (ents a).

Lemma same_value_refl {F : FloatIO} v n : to_node v = Ok n -> same_value v (GNode n).
Proof. intros H. exists n. auto. Qed.

Lemma write_total {K V} (kn : K -> res node) (vn : V -> res node) (m : amap K V) :
  (forall k v, In (k, v) (ents m) -> (exists n, kn k = Ok n) /\ exists n, vn v = Ok n) -> exists n, map_to_yaml kn vn m = Ok n.
Proof.
  intros H. assert (G : exists l, map_res (entry_node kn vn) (ents m) = Ok l /\
     exists l', map_res (fun e => do p <- entry_node kn vn e; Ok (Map TMap [p])) (ents m) = Ok l').
  { destruct m as [es b]. cbn in *. induction es as [|[k v] es IH].
    - exists []. split; [reflexivity|]. exists []. reflexivity.
    - destruct IH as [l [Hl [l' Hl']]]; [intros; apply H; right; assumption|].
      destruct (H k v (or_introl eq_refl)) as [[a Ha] [c Hc]].
      exists ((a, c) :: l). split.
      + cbn. unfold entry_node at 1. cbn. rewrite Ha. cbn. rewrite Hc. cbn. rewrite Hl. reflexivity.
      + eexists. cbn. unfold entry_node at 1. cbn. rewrite Ha. cbn. rewrite Hc. cbn. rewrite Hl'. reflexivity. }
  destruct G as [l [Hl [l' Hl']]]. unfold map_to_yaml. destruct (oord m); [rewrite Hl'|rewrite Hl]; cbn; eauto.
Qed.

Lemma ann_written {F : FloatIO} a : ann_returns a -> exists n a', untyped_to_yaml a = Ok n /\ read_annotation n = Ok a' /\ same_map same_value a a'.
Proof.
  intros [Ho [Hn Hv]]. destruct (write_total skey_node to_node a) as [n Hw].
  { intros k v Hi. split; [eexists; reflexivity|]. rewrite Forall_forall in Hv. exact (Hv _ Hi). }
  destruct (write_read_amap as_gnode to_node same_value true a n Ho Hn) as [l [Hr Hs]]; [|exact Hw|].
  - intros k v nv _ E. exists (GNode nv). split; [reflexivity|apply same_value_refl; exact E].
  - exists n, (mkMap l true). auto.
Qed.

(** ** Examples *)

Definition value_returns {F : FloatIO} (k : dkind) (v : gval) : Prop :=
  match k with
  | TyString | TyDateOnly | TyDatetime | TyDatetimeOnly | TyTimeOnly => exists s, v = GStr s
  | TyBool => exists b, v = GBool b
  | TyInteger => exists z, v = GInt z /\ (- 2 ^ 63 <= z <= 2 ^ 63 - 1)%Z
  | TyNumber => exists f, v = GFloat f /\ denotes_float (float_node f) f
  | TyArray => exists l n, v = GList l /\ to_node v = Ok n
  | TyNil | TyInclude => False
  | _ => exists n, to_node v = Ok n
  end.

Definition starts_paren (s : string) : bool := match s with String c _ => Ascii.eqb c "(" | EmptyString => false end.

(** A key that is written as a node from which it is read. *)
Definition key_returns {F : FloatIO} (k : gkey) : Prop := exists n, key_node k = Ok n /\ to_scalar n = Ok k.

Definition ex_extra_returns {F : FloatIO} (k : gkey) : Prop :=
  key_returns k /\ forall s, k = KStr s -> s <> "" /\ starts_paren s = false /\ ~ In s ex_names.

Definition ex_returns {F : FloatIO} (k : dkind) (e : ex) : Prop :=
  (forall v, ex_value e = Some v -> value_returns k v) /\
  NoDup (map fst (ents (ex_anns e))) /\
  Forall (fun a => starts_paren (fst a) = true /\ ann_returns (snd a)) (ents (ex_anns e)) /\
  apart (map fst (ents (ex_extra e))) = true /\
  Forall (fun x => ex_extra_returns (fst x) /\ exists n, to_node (snd x) = Ok n) (ents (ex_extra e)).

Lemma to_int_range z : (- 2 ^ 63 <= z <= 2 ^ 63 - 1)%Z -> to_int (int_node z) = Ok z.
Proof. intros H. apply to_int_node. unfold in_int64. apply andb_true_iff. split; apply Z.leb_le; unfold min_int64, max_int64; lia. Qed.

Lemma value_written {F : FloatIO} k v : value_returns k v ->
  exists n v', to_node v = Ok n /\ ex_val k n = Ok v' /\ same_of k v v'.
Proof.
  destruct k; cbn; try (intros [s ->]; eexists; eexists; repeat split; reflexivity);
    try (intros [n H]; exists n, (GNode n); repeat split; [exact H|]; apply same_value_refl; exact H); try (intros []; fail).
  - intros [l [n [-> H]]]. cbn in H. apply bind_ok in H as [ns [H1 H2]]. injection H2 as <-.
    exists (Seq TSeq ns), (GList (map GNode ns)). cbn. rewrite H1. repeat split. exists (Seq TSeq ns). cbn. rewrite H1. split; [reflexivity|].
    rewrite map_res_map. cbn. rewrite (map_res_total _ _ (fun n => Ok n) (fun n => n)) by reflexivity. cbn. rewrite map_id. reflexivity.
  - intros [b ->]. exists (bool_node b), (GBool b). cbn [to_node]. rewrite to_bool_node. auto.
  - intros [z [-> Hz]]. exists (int_node z), (GInt z). cbn [to_node]. rewrite to_int_range by exact Hz. auto.
  - intros [f [-> Hf]]. exists (float_node f), (GFloat f). cbn [to_node]. apply denotes_float_iff in Hf. rewrite Hf. auto.
Qed.

(** The pairs an expanded example puts out. *)
Definition ex_segs {F : FloatIO} (e : ex) : outm :=
  opt_seg KeyDisplayName (option_map (fun s => Ok (str_node s)) (ex_display e)) ++
  opt_seg KeyDescription (option_map (fun s => Ok (str_node s)) (ex_descr e)) ++
  opt_seg KeyValue (option_map to_node (ex_value e)) ++
  if_seg (negb (Bool.eqb (ex_strict e) ExampleDefaultStrict)) KeyStrict (Ok (bool_node (ex_strict e))) ++
  all_seg KStr untyped_to_yaml (ents (ex_anns e)) ++
  all_seg (fun k => k) to_node (ents (ex_extra e)).

Lemma expand_iff e : ex_expand e = true <-> more_than_value e.
Proof.
  unfold ex_expand, more_than_value, nonempty, ExampleDefaultStrict. destruct (ex_display e), (ex_descr e), (ents (ex_anns e)), (ents (ex_extra e)), (ex_strict e); cbn;
    split; intros H; try reflexivity; try discriminate H; try (left; discriminate); try (right; left; discriminate); try (do 2 right; left; discriminate);
    try (do 3 right; left; discriminate); try (do 4 right; reflexivity).
  destruct H as [H|[H|[H|[H|H]]]]; congruence.
Qed.
Lemma expand_false e : ~ more_than_value e -> ex_expand e = false.
Proof. intros H. destruct (ex_expand e) eqn:E; [|reflexivity]. apply expand_iff in E. contradiction. Qed.

Lemma ex_marshal_segs {F : FloatIO} e : ex_expand e = true -> fst (ex_marshal e []) = puts_all (ex_segs e) [].
Proof.
  intros H. unfold ex_marshal. rewrite H. cbn [fst]. unfold ex_segs. rewrite !puts_all_app.
  rewrite !oput_opt_puts, oput_if_puts, !oput_all_puts. reflexivity.
Qed.

Lemma all_seg_keys {K V} (kf : K -> gkey) (vf : V -> res node) l : map fst (all_seg kf vf l) = map kf (map fst l).
Proof. unfold all_seg. rewrite !map_map. reflexivity. Qed.

(** Keys of a list of strings are apart from a non-string key and from other strings. *)
Lemma apart_known (ks : list string) (l : list gkey) : NoDup ks -> apart l = true ->
  (forall s, In (KStr s) l -> ~ In s ks) -> apart (map KStr ks ++ l) = true.
Proof.
  intros H1 H2 H3. apply apart_app. split; [apply apart_strings; exact H1|]. split; [exact H2|].
  intros a b Ha Hb. apply in_map_iff in Ha as [s [<- Hs]]. destruct b; try reflexivity. cbn. apply String.eqb_neq.
  intros ->. exact (H3 _ Hb Hs).
Qed.

Lemma opt_seg_keys k v : map fst (opt_seg k v) = map KStr (if v then [k] else []).
Proof. destruct v; reflexivity. Qed.
Lemma if_seg_keys c k v : map fst (if_seg c k v) = map KStr (if c then [k] else []).
Proof. destruct c; reflexivity. Qed.

Lemma ex_keys_apart {F : FloatIO} e : NoDup (map fst (ents (ex_anns e))) -> (forall s, In s (map fst (ents (ex_anns e))) -> starts_paren s = true) ->
  apart (map fst (ents (ex_extra e))) = true ->
  (forall s, In (KStr s) (map fst (ents (ex_extra e))) -> starts_paren s = false /\ ~ In s ex_names) -> apart (map fst (ex_segs e)) = true.
Proof.
  intros Ha Hpre Hx Hxs. unfold ex_segs. rewrite !map_app, !opt_seg_keys, if_seg_keys, !all_seg_keys, map_id, !app_assoc, <- !map_app.
  apply apart_known; [|exact Hx|].
  - assert (N : forall s, starts_paren s = false -> ~ In s (map fst (ents (ex_anns e)))).
    { intros s Hs Hi. apply Hpre in Hi. congruence. }
    destruct (option_map _ (ex_display e)); destruct (option_map _ (ex_descr e)); destruct (option_map to_node (ex_value e));
      destruct (negb (Bool.eqb (ex_strict e) ExampleDefaultStrict)); cbn;
      repeat (apply NoDup_cons; [cbn; intros [E|H]; [discriminate|revert H]; repeat (intros [E|H]; [discriminate|revert H]); try (apply N; reflexivity)
                                |] || (apply NoDup_cons; [apply N; reflexivity|])); exact Ha.
  - intros s Hs Hi. destruct (Hxs s Hs) as [K2 K3]. repeat (apply in_app_or in Hi as [Hi|Hi]).
    + destruct (option_map _ (ex_display e)); [destruct Hi as [<-|[]]; apply K3; simpl; auto|destruct Hi].
    + destruct (option_map _ (ex_descr e)); [destruct Hi as [<-|[]]; apply K3; simpl; auto|destruct Hi].
    + destruct (option_map to_node (ex_value e)); [destruct Hi as [<-|[]]; apply K3; simpl; auto 6|destruct Hi].
    + destruct (negb _); [destruct Hi as [<-|[]]; apply K3; simpl; auto 6|destruct Hi].
    + apply Hpre in Hi. congruence.
Qed.

Lemma ex_segs_apart {F : FloatIO} k e : ex_returns k e -> apart (map fst (ex_segs e)) = true.
Proof.
  intros [_ [Ha [Hp [Hx Hxs]]]]. rewrite Forall_forall in Hp, Hxs. apply ex_keys_apart; [exact Ha| |exact Hx|].
  - intros s Hs. apply in_map_iff in Hs as [a [<- Hi]]. apply Hp. exact Hi.
  - intros s Hs. apply in_map_iff in Hs as [x [Ex Hx']]. destruct (Hxs x Hx') as [[_ Hk] _]. destruct (Hk s Ex) as [_ K]. exact K.
Qed.

(** ** Reading the segments *)

Definition ex_with_anns (e : ex) (l : list (string * untyped)) : ex :=
  mkEx (ex_display e) (ex_descr e) (mkMap l (oord (ex_anns e))) (ex_value e) (ex_strict e) (ex_extra e).
Definition ex_with_extra (e : ex) (l : list (gkey * gval)) : ex :=
  mkEx (ex_display e) (ex_descr e) (ex_anns e) (ex_value e) (ex_strict e) (mkMap l (oord (ex_extra e))).

Lemma mput_fresh_any {V} k (v : V) m : ~ In k (map fst (ents m)) -> mput k v m = mkMap (ents m ++ [(k, v)]) (oord m).
Proof. destruct m as [l b]. apply mput_fresh. Qed.

Lemma read_ann_segs {F : FloatIO} kd es : forall pre e q, Forall2 wrote (all_seg KStr untyped_to_yaml es) q ->
  Forall (fun a => starts_paren (fst a) = true /\ ann_returns (snd a)) es -> NoDup (map fst (pre ++ es)) ->
  ents (ex_anns e) = pre ->
  exists l, fold_res (ex_assign kd) e q = Ok (ex_with_anns e (pre ++ l)) /\ Forall2 (same_entry (same_map same_value)) es l.
Proof.
  induction es as [|[k a] es IH]; intros pre e q Hq Hp Hn He; cbn in Hq; inversion Hq as [|x y xs ys [H1 H2] H3]; subst.
  - exists []. rewrite app_nil_r. split; [destruct e as [d1 d2 [a1 a2] d4 d5 d6]; reflexivity|constructor].
  - cbn in H1, H2. injection H1 as H1. destruct y as [yk yv]. cbn in H1, H2. subst yk.
    inversion Hp as [|x1 x2 [P1 P2] P3]; subst. cbn in P1, P2.
    destruct (ann_written a P2) as [n [a' [W [Rd Sa]]]]. rewrite H2 in W. injection W as ->.
    pose (e1 := ex_with_anns e (ents (ex_anns e) ++ [(k, a')])).
    destruct (IH (ents (ex_anns e) ++ [(k, a')]) e1 ys H3 P3) as [l [Hf Hl]]; [|reflexivity|].
    + rewrite <- app_assoc. rewrite map_app in *. exact Hn.
    + exists ((k, a') :: l). split.
      * cbn [fold_res]. assert (E : ex_assign kd e (str_node k, n) = Ok e1).
        { unfold ex_assign. cbn. destruct k as [|c k]; [discriminate P1|]. cbn in P1. rewrite P1, Rd. cbn.
          unfold e1, ex_with_anns. rewrite mput_fresh_any; [reflexivity|].
          rewrite map_app in Hn. cbn in Hn. intros Hi. apply NoDup_remove_2 in Hn. apply Hn, in_or_app. auto. }
        rewrite E. cbn. rewrite Hf. rewrite <- app_assoc. reflexivity.
      * constructor; [split; [reflexivity|exact Sa]|exact Hl].
Qed.

Lemma ex_assign_extra {F : FloatIO} kd e k n v : ex_extra_returns k -> key_node k = Ok n ->
  ex_assign kd e (n, v) = Ok (ex_set_extra e k v).
Proof.
  intros [[n' [K1 K2]] Hs] Hn. rewrite Hn in K1. injection K1 as <-. unfold ex_assign. cbn [fst snd].
  destruct (is_string n) eqn:Es; cbn [negb].
  - assert (k = KStr (value n)).
    { destruct n as [t s|t l|t l]; [|destruct k; discriminate|destruct k; discriminate].
      unfold is_string in Es. cbn in Es. destruct t; try discriminate. cbn in K2. injection K2 as <-. reflexivity. }
    destruct (Hs _ H) as [N0 [N1 N2]]. rewrite K2. destruct (value n) as [|c r] eqn:Ev; [congruence|]. cbn in N1. rewrite N1.
    unfold ex_names in N2. cbn [In] in N2.
    rewrite !(proj2 (String.eqb_neq _ _)) by (intros E; apply N2; rewrite E; auto 6). reflexivity.
  - rewrite K2. reflexivity.
Qed.

Lemma read_extra_segs {F : FloatIO} kd es : forall pre e q, Forall2 wrote (all_seg (fun k => k) to_node es) q ->
  Forall (fun x => ex_extra_returns (fst x) /\ exists n, to_node (snd x) = Ok n) es -> apart (map fst (pre ++ es)) = true ->
  ents (ex_extra e) = pre ->
  exists l, fold_res (ex_assign kd) e q = Ok (ex_with_extra e (pre ++ l)) /\ Forall2 (same_entry same_value) es l.
Proof.
  induction es as [|[k a] es IH]; intros pre e q Hq Hp Hn He; cbn in Hq; inversion Hq as [|x y xs ys [H1 H2] H3]; subst.
  - exists []. rewrite app_nil_r. split; [destruct e as [d1 d2 d3 d4 d5 [a1 a2]]; reflexivity|constructor].
  - cbn in H1, H2. destruct y as [yk yv]. cbn in H1, H2.
    inversion Hp as [|x1 x2 [P1 [n P2]] P3]; subst. cbn in P1, P2. rewrite P2 in H2. injection H2 as <-.
    pose (e1 := ex_with_extra e (ents (ex_extra e) ++ [(k, GNode n)])).
    destruct (IH (ents (ex_extra e) ++ [(k, GNode n)]) e1 ys H3 P3) as [l [Hf Hl]]; [|reflexivity|].
    + rewrite <- app_assoc. rewrite map_app in *. exact Hn.
    + exists ((k, GNode n) :: l). split.
      * cbn [fold_res]. assert (E : ex_assign kd e (yk, n) = Ok e1).
        { rewrite (ex_assign_extra kd e k yk n P1 H1). unfold ex_set_extra, e1, ex_with_extra, kput. rewrite sput_fresh; [reflexivity|].
          intros x Hx. rewrite map_app in Hn. apply apart_app in Hn as [_ [_ Hn]]. apply Hn; [apply in_map; exact Hx|left; reflexivity]. }
        rewrite E. cbn. rewrite Hf. rewrite <- app_assoc. reflexivity.
      * constructor; [split; [reflexivity|apply same_value_refl; exact P2]|exact Hl].
Qed.

Lemma wrote_exists {F : FloatIO} o : (forall k r, In (k, r) o -> (exists n, key_node k = Ok n) /\ exists n, r = Ok n) ->
  exists l, Forall2 wrote o l.
Proof.
  induction o as [|[k r] o IH]; intros H; [exists []; constructor|].
  destruct IH as [l Hl]; [intros; apply H; right; assumption|].
  destruct (H k r (or_introl eq_refl)) as [[a Ha] [c Hc]]. exists ((a, c) :: l). constructor; [split; assumption|exact Hl].
Qed.

Lemma ex_round_trip {F : FloatIO} k e : more_than_value e -> ex_returns k e ->
  exists n e', ex_to_yaml e = Ok n /\ read_ex k n = Ok e' /\ same_ex k e e'.
Proof.
  intros Hx Hr. apply expand_iff in Hx. pose proof (ex_segs_apart k e Hr) as Ha. destruct Hr as [Hv [Hn [Hp [Hxa Hxs]]]].
  assert (Hw : exists l, Forall2 wrote (ex_segs e) l).
  { apply wrote_exists. intros key r Hi. unfold ex_segs in Hi. rewrite Forall_forall in Hp, Hxs.
    repeat (apply in_app_or in Hi as [Hi|Hi]).
    - destruct (ex_display e); cbn in Hi; [destruct Hi as [E|[]]; injection E as <- <-|destruct Hi]; split; eexists; reflexivity.
    - destruct (ex_descr e); cbn in Hi; [destruct Hi as [E|[]]; injection E as <- <-|destruct Hi]; split; eexists; reflexivity.
    - destruct (ex_value e) as [v|]; cbn in Hi; [destruct Hi as [E|[]]; injection E as <- <-|destruct Hi].
      destruct (value_written k v (Hv v eq_refl)) as [n [v' [W _]]]. split; eexists; [reflexivity|exact W].
    - destruct (negb _); cbn in Hi; [destruct Hi as [E|[]]; injection E as <- <-|destruct Hi]; split; eexists; reflexivity.
    - apply in_map_iff in Hi as [a [E Hi]]. injection E as <- <-. destruct (Hp a Hi) as [_ R].
      destruct (ann_written _ R) as [n [_ [W _]]]. split; eexists; [reflexivity|exact W].
    - apply in_map_iff in Hi as [a [E Hi]]. injection E as <- <-. destruct (Hxs a Hi) as [[[n [R1 _]] _] [n' R2]].
      split; eexists; [exact R1|exact R2]. }
  destruct Hw as [l Hl]. exists (Map TMap l).
  assert (HY : ex_to_yaml e = Ok (Map TMap l)).
  { unfold ex_to_yaml. rewrite ex_marshal_segs by exact Hx. rewrite puts_fresh_nil by exact Ha. apply out_to_yaml_ok. eauto. }
  unfold ex_segs in Hl.
  apply Forall2_app_inv_l in Hl as [l1 [r1 [L1 [Hl E1]]]].
  apply Forall2_app_inv_l in Hl as [l2 [r2 [L2 [Hl E2]]]].
  apply Forall2_app_inv_l in Hl as [l3 [r3 [L3 [Hl E3]]]].
  apply Forall2_app_inv_l in Hl as [l4 [r4 [L4 [Hl E4]]]].
  apply Forall2_app_inv_l in Hl as [l5 [l6 [L5 [L6 E5]]]].
  subst l r1 r2 r3 r4.
  pose (e1 := mkEx (ex_display e) None anew_unordered None true anew_unordered).
  pose (e2 := mkEx (ex_display e) (ex_descr e) anew_unordered None true anew_unordered).
  assert (S1 : fold_res (ex_assign k) new_ex l1 = Ok e1).
  { unfold e1. apply wrote_opt in L1. destruct (ex_display e) as [s|]; cbn in L1.
    - destruct L1 as [n [E ->]]. injection E as <-. reflexivity.
    - subst l1. reflexivity. }
  assert (S2 : fold_res (ex_assign k) e1 l2 = Ok e2).
  { unfold e2. apply wrote_opt in L2. destruct (ex_descr e) as [s|]; cbn in L2.
    - destruct L2 as [n [E ->]]. injection E as <-. reflexivity.
    - subst l2. reflexivity. }
  assert (S3 : exists v, fold_res (ex_assign k) e2 l3 = Ok (mkEx (ex_display e) (ex_descr e) anew_unordered v true anew_unordered) /\
                         same_opt (same_of k) (ex_value e) v).
  { apply wrote_opt in L3. destruct (ex_value e) as [v|]; cbn in L3.
    - destruct L3 as [n [E ->]]. destruct (value_written k v (Hv v eq_refl)) as [n' [v' [W [R S]]]]. rewrite W in E. injection E as <-.
      exists (Some v'). split; [|exact S]. cbn [fold_res]. unfold ex_assign. cbn [fst snd is_string node_tag str_node negb value].
      cbn [Ascii.eqb String.eqb Bool.eqb]. rewrite R. reflexivity.
    - subst l3. exists None. split; reflexivity. }
  destruct S3 as [v [S3 Sv]]. pose (e4 := mkEx (ex_display e) (ex_descr e) anew_unordered v (ex_strict e) anew_unordered).
  assert (S4 : fold_res (ex_assign k) (mkEx (ex_display e) (ex_descr e) anew_unordered v true anew_unordered) l4 = Ok e4).
  { unfold e4. apply wrote_if in L4. destruct (ex_strict e); cbn in L4.
    - subst l4. reflexivity.
    - destruct L4 as [n [E ->]]. injection E as <-. reflexivity. }
  destruct (read_ann_segs k (ents (ex_anns e)) [] e4 l5 L5 Hp Hn eq_refl) as [as_ [S5 Sa]].
  destruct (read_extra_segs k (ents (ex_extra e)) [] (ex_with_anns e4 ([] ++ as_)) l6 L6 Hxs Hxa eq_refl) as [xs [S6 Sx]].
  eexists. split; [exact HY|]. split.
  - unfold read_ex, ex_unmarshal. rewrite fold_res_app, S1. cbn [bind]. rewrite fold_res_app, S2. cbn [bind].
    rewrite fold_res_app, S3. cbn [bind]. rewrite fold_res_app, S4. cbn [bind]. rewrite fold_res_app, S5. cbn [bind]. exact S6.
  - unfold same_ex. cbn. repeat split; assumption.
Qed.

(** The short form is never readable. *)
Lemma ex_short_broken {F : FloatIO} k e n : ~ more_than_value e -> ex_to_yaml e = Ok n -> read_ex k n = Panic.
Proof.
  intros Hx H. apply expand_false in Hx. unfold ex_to_yaml, ex_marshal in H. rewrite Hx in H. cbn [fst] in H.
  apply out_to_yaml_ok in H as [l [-> H]]. cbn in H. inversion H as [|a b x y [H1 H2] H3]; subst. inversion H3; subst.
  destruct b as [bk bv]. cbn in H1. injection H1 as <-. reflexivity.
Qed.
