(** Proofs of C87. *)
From Coq Require Import SpecFloat.
From Verif Require Import Base Num OMap OMapSpec Keys Yaml Values Assign Formats Meta Out Xml Example DataType Marshal Doc Api Library TypeFacts Sizes.
Local Open Scope nat_scope.

(** ** Sums *)

Definition total {A} (w : A -> nat) (l : list A) : nat := list_sum (map w l).
Lemma total_cons {A} (w : A -> nat) a l : total w (a :: l) = w a + total w l.
Proof. reflexivity. Qed.
Lemma total_app {A} (w : A -> nat) l k : total w (l ++ k) = total w l + total w k.
Proof. unfold total. rewrite map_app, list_sum_app. reflexivity. Qed.
Lemma total_filter {A} (w : A -> nat) p l : total w (filter p l) <= total w l.
Proof. induction l as [|a l IH]; [reflexivity|]. cbn [filter]. destruct (p a); rewrite ?total_cons; lia. Qed.
Lemma total_le {A} (w w' : A -> nat) l : (forall a, In a l -> w a <= w' a) -> total w l <= total w' l.
Proof. induction l as [|a l IH]; intros H; [reflexivity|]. rewrite !total_cons. pose proof (H a (or_introl eq_refl)). assert (total w l <= total w' l) by (apply IH; intros b Hb; apply H; right; exact Hb). lia. Qed.
Lemma total_map {A B} (w : B -> nat) (f : A -> B) l : total w (map f l) = total (fun a => w (f a)) l.
Proof. unfold total. rewrite map_map. reflexivity. Qed.
Lemma total_sput {K V} (eqb : K -> K -> bool) (w : K * V -> nat) k v l : total w (sput eqb k v l) <= total w l + w (k, v).
Proof. unfold sput. rewrite total_app. unfold sdelete. pose proof (total_filter w (other eqb k) l). cbn. lia. Qed.

Lemma nodes_seq t l : nodes (Seq t l) = Datatypes.S (total nodes l).
Proof. reflexivity. Qed.
Definition pair_nodes (e : node * node) : nat := nodes (fst e) + nodes (snd e).
Lemma nodes_map t l : nodes (Map t l) = Datatypes.S (total pair_nodes l).
Proof. cbn [nodes]. f_equal. unfold total. f_equal. apply map_ext. intros [k v]. reflexivity. Qed.
Lemma nodes_pos n : 1 <= nodes n.
Proof. destruct n; cbn [nodes]; lia. Qed.

(** ** Written entries *)

Definition rw (r : res node) : nat := match r with Ok n => nodes n | _ => 0 end.
Definition ow (o : outm) : nat := total (fun e => 1 + rw (snd e)) o.
Lemma ow_oput k v o : ow (oput k v o) <= ow o + (1 + rw v).
Proof. exact (total_sput gkey_eqb _ k v o). Qed.
Definition ew (v : option (res node)) : nat := match v with Some r => 1 + rw r | None => 0 end.
Lemma ow_opt k v o : ow (oput_opt k v o) <= ow o + ew v.
Proof. destruct v as [r|]; cbn [oput_opt ew]; [apply ow_oput|lia]. Qed.
Definition iw (c : bool) (n : nat) : nat := if c then n else 0.
Lemma ow_if c k v o : ow (oput_if c k v o) <= ow o + iw c (1 + rw v).
Proof. destruct c; cbn [oput_if iw]; [apply ow_oput|lia]. Qed.
Lemma ow_all {K V} (kf : K -> gkey) (vf : V -> res node) l o : ow (oput_all kf vf l o) <= ow o + total (fun e => 1 + rw (vf (snd e))) l.
Proof.
  unfold oput_all. revert o. induction l as [|e l IH]; intros o; [cbn [fold_left]; lia|]. cbn [fold_left]. rewrite total_cons. pose proof (IH (oput (kf (fst e)) (vf (snd e)) o)) as H. pose proof (ow_oput (kf (fst e)) (vf (snd e)) o). lia.
Qed.

Lemma map_to_yaml_size {K V} (kn : K -> res node) (vn : V -> res node) m : (forall k n, kn k = Ok n -> nodes n = 1) -> rw (map_to_yaml kn vn m) <= 1 + total (fun e => 2 + rw (vn (snd e))) (ents m).
Proof.
  intros Hk. unfold map_to_yaml. destruct (oord m).
  - destruct (map_res _ (ents m)) as [l| |] eqn:E; cbn [bind rw]; try lia. rewrite nodes_seq. apply le_n_S. revert l E. induction (ents m) as [|e es IH]; intros l E; cbn [map_res] in E; [injection E as <-; reflexivity|].
    destruct (entry_node kn vn e) as [p| |] eqn:Ep; try discriminate E. cbn [bind] in E. destruct (map_res _ es) as [l'| |] eqn:El; try discriminate E. injection E as <-. rewrite !total_cons. specialize (IH l' eq_refl). rewrite nodes_map. unfold entry_node in Ep.
    destruct (kn (fst e)) as [k| |] eqn:Ek; try discriminate Ep. cbn [bind] in Ep. destruct (vn (snd e)) as [v| |]; try discriminate Ep. injection Ep as <-. cbn [rw]. unfold pair_nodes, total at 1. cbn [map fst snd list_sum fold_right]. rewrite (Hk _ _ Ek). lia.
  - destruct (map_res _ (ents m)) as [l| |] eqn:E; cbn [bind rw]; try lia. rewrite nodes_map. apply le_n_S. revert l E. induction (ents m) as [|e es IH]; intros l E; cbn [map_res] in E; [injection E as <-; reflexivity|].
    destruct (entry_node kn vn e) as [p| |] eqn:Ep; try discriminate E. cbn [bind] in E. destruct (map_res _ es) as [l'| |] eqn:El; try discriminate E. injection E as <-. rewrite !total_cons. specialize (IH l' eq_refl). unfold entry_node in Ep.
    destruct (kn (fst e)) as [k| |] eqn:Ek; try discriminate Ep. cbn [bind] in Ep. destruct (vn (snd e)) as [v| |]; try discriminate Ep. injection Ep as <-. unfold pair_nodes at 1. cbn [fst snd rw]. rewrite (Hk _ _ Ek). lia.
Qed.
Lemma skey_one k n : skey_node k = Ok n -> nodes n = 1.
Proof. unfold skey_node. intros E. injection E as <-. reflexivity. Qed.

Section Sizes.
  Context {F : FloatIO}.

  Lemma key_one k n : key_node k = Ok n -> nodes n = 1.
  Proof. destruct k; cbn [key_node]; intros E; try discriminate E; injection E as <-; reflexivity. Qed.
  Lemma out_size o : rw (out_to_yaml o) <= 1 + ow o.
  Proof.
    unfold out_to_yaml, map_to_yaml. cbn [oord ents]. destruct (map_res _ o) as [l| |] eqn:E; cbn [bind rw]; try lia. rewrite nodes_map. apply le_n_S. revert l E. induction o as [|e es IH]; intros l E; cbn [map_res] in E; [injection E as <-; reflexivity|].
    destruct (entry_node _ _ e) as [p| |] eqn:Ep; try discriminate E. cbn [bind] in E. destruct (map_res _ es) as [l'| |] eqn:El; try discriminate E. injection E as <-. unfold ow in *. rewrite !total_cons. specialize (IH l' eq_refl). unfold entry_node in Ep.
    destruct (key_node (fst e)) as [k| |] eqn:Ek; try discriminate Ep. cbn [bind] in Ep. destruct (snd e) as [v| |]; try discriminate Ep. injection Ep as <-. unfold pair_nodes at 1. cbn [fst snd rw]. rewrite (key_one _ _ Ek). lia.
  Qed.

  (** ** Values *)

  Definition gw (g : gval) : nat := rw (to_node g).
  Lemma gw_node n : gw (GNode n) = nodes n. Proof. reflexivity. Qed.
  Lemma gw_list l : gw (GList l) <= 1 + total gw l.
  Proof.
    unfold gw at 1. cbn [to_node]. destruct (map_res to_node l) as [ns| |] eqn:E; cbn [bind rw]; try lia. rewrite nodes_seq. apply le_n_S. revert ns E. induction l as [|g l IH]; intros ns E; cbn [map_res] in E; [injection E as <-; reflexivity|].
    destruct (to_node g) as [n| |] eqn:Eg; try discriminate E. cbn [bind] in E. destruct (map_res to_node l) as [l'| |]; try discriminate E. injection E as <-. rewrite !total_cons. specialize (IH l' eq_refl). unfold gw at 1. rewrite Eg. cbn [rw]. lia.
  Qed.

  (** ** Maps that are read *)

  Definition sumw {K V} (f : V -> nat) (m : amap K V) : nat := total (fun e => 2 + f (snd e)) (ents m).
  Lemma sumw_put {V} (f : V -> nat) k v (m : amap string V) : sumw f (mput k v m) <= sumw f m + (2 + f v).
  Proof. exact (total_sput String.eqb (fun e => 2 + f (snd e)) k v (ents m)). Qed.
  Lemma read_amap_total {V} (dec : node -> res V) (w : V -> nat) m n m' : read_amap dec m n = Ok m' ->
    (forall t l k v x, n = Map t l -> In (k, v) l -> dec v = Ok x -> w x <= 3 * nodes v + 3) -> total (fun e => w (snd e)) (ents m') + 3 <= total (fun e => w (snd e)) (ents m) + 3 * nodes n.
  Proof.
    unfold read_amap, map_fold. destruct n as [t s|t l|t l]; try discriminate. intros H B. rewrite nodes_map. specialize (fun k v x => B t l k v x eq_refl). revert m H B. induction l as [|[k v] l IH]; intros m H B; cbn [fold_res] in H; [injection H as <-; cbn; lia|].
    unfold read_amap_pair at 1 in H. cbn [fst snd] in H. destruct (to_str k) as [s| |]; cbn [bind] in H; try discriminate H. destruct (dec v) as [x| |] eqn:Ex; cbn [bind] in H; try discriminate H.
    specialize (IH _ H (fun k v x I => B k v x (or_intror I))). rewrite total_cons. pose proof (B k v x (or_introl eq_refl) Ex). pose proof (total_sput String.eqb (fun e => w (snd e)) s x (ents m)). pose proof (nodes_pos k). unfold pair_nodes at 1. cbn [fst snd] in *. change (ents (mput s x m)) with (sput String.eqb s x (ents m)) in *. lia.
  Qed.
  Lemma read_amap_size {V} (dec : node -> res V) (f : V -> nat) m n m' : read_amap dec m n = Ok m' ->
    (forall t l k v x, n = Map t l -> In (k, v) l -> dec v = Ok x -> f x <= 3 * nodes v + 1) -> sumw f m' + 3 <= sumw f m + 3 * nodes n.
  Proof. intros H B. apply (read_amap_total dec (fun x => 2 + f x) m n m' H). intros t l k v x E I D. specialize (B t l k v x E I D). lia. Qed.
  Lemma untyped_read m n m' : read_untyped m n = Ok m' -> sumw gw m' + 3 <= sumw gw m + 3 * nodes n.
  Proof. intros H. apply (read_amap_size as_gnode gw m n m' H). intros t l k v x _ _ E. injection E as <-. rewrite gw_node. lia. Qed.
  Lemma untyped_yaml m : rw (untyped_to_yaml m) <= 1 + sumw gw m.
  Proof. exact (map_to_yaml_size skey_node to_node m skey_one). Qed.
  Lemma annotation_read n a : read_annotation n = Ok a -> rw (untyped_to_yaml a) + 2 <= 3 * nodes n.
  Proof. intros H. pose proof (read_amap_size as_gnode gw anew n a H) as B. pose proof (untyped_yaml a). assert (sumw gw a + 3 <= sumw gw (@anew string gval) + 3 * nodes n); [apply B; intros t l k v x _ _ E; injection E as <-; rewrite gw_node; lia|]. cbn in *. lia. Qed.

  (** ** Examples *)

  Definition aw {K V} (f : V -> nat) (l : list (K * V)) : nat := total (fun e => 1 + f (snd e)) l.
  Lemma aw_mput {V} (f : V -> nat) k v (m : amap string V) : aw f (ents (mput k v m)) <= aw f (ents m) + (1 + f v).
  Proof. exact (total_sput String.eqb (fun e => 1 + f (snd e)) k v (ents m)). Qed.
  Lemma aw_kput {V} (f : V -> nat) k v (m : amap gkey V) : aw f (ents (kput k v m)) <= aw f (ents m) + (1 + f v).
  Proof. exact (total_sput gkey_eqb (fun e => 1 + f (snd e)) k v (ents m)). Qed.
  Definition ow2 {A} (o : option A) : nat := match o with Some _ => 2 | None => 0 end.
  Definition ovw (o : option gval) : nat := match o with Some g => 1 + gw g | None => 0 end.
  Definition unw (m : untyped) : nat := rw (untyped_to_yaml m).
  Definition ce (e : ex) : nat := ow2 (ex_display e) + ow2 (ex_descr e) + ovw (ex_value e) + iw (negb (Bool.eqb (ex_strict e) ExampleDefaultStrict)) 2 + aw unw (ents (ex_anns e)) + aw gw (ents (ex_extra e)).
  Lemma ew_str o : ew (option_map (fun s => Ok (str_node s)) o) = ow2 o. Proof. destruct o; reflexivity. Qed.
  Lemma ew_val o : ew (option_map to_node o) = ovw o. Proof. destruct o; reflexivity. Qed.
  Lemma iw_le c n : iw c n <= n. Proof. destruct c; cbn; lia. Qed.
  Lemma ex_size e : rw (ex_to_yaml e) <= 1 + Nat.max (ce e) 2.
  Proof.
    unfold ex_to_yaml. pose proof (out_size (fst (ex_marshal e []))) as B. unfold ex_marshal in *. destruct (ex_expand e) eqn:X; cbn [fst] in *.
    - assert (Z : forall o, ow (oput_all (fun k => k) to_node (ents (ex_extra e)) (oput_all KStr untyped_to_yaml (ents (ex_anns e)) o)) <= ow o + aw unw (ents (ex_anns e)) + aw gw (ents (ex_extra e))).
      { intros o. pose proof (ow_all (fun k : gkey => k) to_node (ents (ex_extra e)) (oput_all KStr untyped_to_yaml (ents (ex_anns e)) o)). pose proof (ow_all KStr untyped_to_yaml (ents (ex_anns e)) o). unfold aw, unw, gw. lia. }
      set (o1 := oput_opt _ _ []) in *. set (o2 := oput_opt _ _ o1) in *. set (o3 := oput_opt _ _ o2) in *. set (o4 := oput_if _ _ _ o3) in *. specialize (Z o4).
      pose proof (ow_opt (KStr KeyDisplayName) (option_map (fun s => Ok (str_node s)) (ex_display e)) []) as B1. pose proof (ow_opt (KStr KeyDescription) (option_map (fun s => Ok (str_node s)) (ex_descr e)) o1) as B2.
      pose proof (ow_opt (KStr KeyValue) (option_map to_node (ex_value e)) o2) as B3. pose proof (ow_if (negb (Bool.eqb (ex_strict e) ExampleDefaultStrict)) (KStr KeyStrict) (Ok (bool_node (ex_strict e))) o3) as B4.
      fold o1 in B1. fold o2 in B2. fold o3 in B3. fold o4 in B4. rewrite ew_str in B1, B2. rewrite ew_val in B3. cbn [rw nodes bool_node] in B4. change (1 + 1) with 2 in B4. change (ow []) with 0 in B1. unfold ce. lia.
    - pose proof (ow_oput (KStr EmptyString) (opt_node (ex_value e)) []) as B1. change (ow []) with 0 in B1. unfold ce. destruct (ex_value e) as [g|]; cbn [opt_node ovw] in *; [unfold gw; lia|]. change (rw (Ok null_node)) with 1 in B1. lia.
  Qed.
  Lemma ex_val_size kd n g : ex_val kd n = Ok g -> gw g <= nodes n.
  Proof.
    pose proof (nodes_pos n) as P. destruct kd; cbn [ex_val]; intros H; try discriminate H.
    all: try (injection H as <-; reflexivity).
    all: try (destruct (to_str n); cbn [bind] in H; try discriminate H; injection H as <-; exact P).
    all: try (destruct (to_bool n); cbn [bind] in H; try discriminate H; injection H as <-; exact P).
    all: try (destruct (to_int n); cbn [bind] in H; try discriminate H; injection H as <-; exact P).
    all: try (destruct (to_float n); cbn [bind] in H; try discriminate H; injection H as <-; exact P).
    destruct n as [t s|t l|t l]; try discriminate H. injection H as <-. rewrite nodes_seq. pose proof (gw_list (map GNode l)) as B. rewrite total_map in B. unfold total in *. cbn [gw to_node rw] in B. exact B.
  Qed.
  Lemma str_ptr_size n o v : run_assign (as_string_ptr n o) = Ok v -> ow2 v <= 2. Proof. destruct v; cbn; lia. Qed.
  Lemma ow2_le {A} (o : option A) : ow2 o <= 2. Proof. destruct o; cbn; lia. Qed.
  Lemma ex_assign_size kd e p e' : ex_assign kd e p = Ok e' -> ce e' <= ce e + 3 * nodes (snd p).
  Proof.
    unfold ex_assign. pose proof (nodes_pos (snd p)) as P. destruct p as [key val]. cbn [fst snd] in *. intros H.
    assert (X : forall k, ce (ex_set_extra e k val) <= ce e + 3 * nodes val).
    { intros k. unfold ce, ex_set_extra. cbn [ex_display ex_descr ex_value ex_strict ex_anns ex_extra]. pose proof (aw_kput gw k (GNode val) (ex_extra e)). rewrite gw_node in *. lia. }
    destruct (negb (is_string key)); [destruct (to_scalar key) as [k| |]; cbn [bind] in H; try discriminate H; injection H as <-; apply X|].
    destruct (value key) as [|c s]; [discriminate H|]. destruct (Ascii.eqb c "(").
    { destruct (read_annotation val) as [a| |] eqn:Ea; cbn [bind] in H; try discriminate H. injection H as <-. apply annotation_read in Ea. unfold ce. cbn [ex_display ex_descr ex_value ex_strict ex_anns ex_extra]. pose proof (aw_mput unw (String c s) a (ex_anns e)). unfold unw in *. lia. }
    destruct (String.eqb _ KeyDisplayName).
    { destruct (run_assign _) as [v| |]; cbn [bind] in H; try discriminate H. injection H as <-. unfold ce. cbn [ex_display ex_descr ex_value ex_strict ex_anns ex_extra]. pose proof (ow2_le v). lia. }
    destruct (String.eqb _ KeyDescription).
    { destruct (run_assign _) as [v| |]; cbn [bind] in H; try discriminate H. injection H as <-. unfold ce. cbn [ex_display ex_descr ex_value ex_strict ex_anns ex_extra]. pose proof (ow2_le v). lia. }
    destruct (String.eqb _ KeyStrict).
    { destruct (run_assign _) as [v| |]; cbn [bind] in H; try discriminate H. injection H as <-. unfold ce. cbn [ex_display ex_descr ex_value ex_strict ex_anns ex_extra]. pose proof (iw_le (negb (Bool.eqb v ExampleDefaultStrict)) 2). lia. }
    destruct (String.eqb _ KeyValue).
    { destruct (ex_val kd val) as [v| |] eqn:Ev; cbn [bind] in H; try discriminate H. injection H as <-. apply ex_val_size in Ev. unfold ce. cbn [ex_display ex_descr ex_value ex_strict ex_anns ex_extra ovw]. lia. }
    destruct (to_scalar key) as [k| |]; cbn [bind] in H; try discriminate H. injection H as <-. apply X.
  Qed.
  (** The outcome of going through entries *)
  Lemma fold_size {S} (f : S -> node * node -> res S) (w : S -> nat) : forall l s s', fold_res f s l = Ok s' -> (forall s e s', In e l -> f s e = Ok s' -> w s' <= w s + 3 * nodes (snd e) + 1) -> w s' + 2 * List.length l <= w s + 3 * total pair_nodes l.
  Proof.
    induction l as [|e l IH]; intros s s' H B; cbn [fold_res] in H; [injection H as <-; cbn; lia|]. destruct (f s e) as [s1| |] eqn:E; cbn [bind] in H; try discriminate H. specialize (IH s1 s' H (fun s e s' I => B s e s' (or_intror I))). pose proof (B s e s1 (or_introl eq_refl) E). rewrite total_cons. pose proof (nodes_pos (fst e)). unfold pair_nodes at 1. cbn [List.length]. lia.
  Qed.
  Lemma ce_value v : ce (mkEx (ex_display new_ex) (ex_descr new_ex) (ex_anns new_ex) (Some v) (ex_strict new_ex) (ex_extra new_ex)) = 1 + gw v.
  Proof. unfold ce. cbn [ex_display ex_descr ex_value ex_strict ex_anns ex_extra new_ex ow2 ovw anew anew_unordered ents]. unfold aw, total, ExampleDefaultStrict. cbn [map list_sum fold_right Bool.eqb negb iw]. lia. Qed.
  Lemma read_ex_size kd n e : read_ex kd n = Ok e -> rw (ex_to_yaml e) <= 3 * nodes n.
  Proof.
    unfold read_ex, ex_unmarshal. intros H. pose proof (ex_size e) as B. pose proof (nodes_pos n) as P. destruct n as [t s|t l|t l].
    - destruct (ex_val kd (Scal t s)) as [v| |] eqn:E; cbn [bind] in H; try discriminate H. apply ex_val_size in E. injection H as <-. rewrite ce_value in B. lia.
    - destruct (ex_val kd (Seq t l)) as [v| |] eqn:E; cbn [bind] in H; try discriminate H. apply ex_val_size in E. injection H as <-. rewrite ce_value in B. lia.
    - rewrite nodes_map in *. pose proof (fold_size (ex_assign kd) ce l new_ex e H) as Q. assert (Z : ce e + 2 * List.length l <= ce new_ex + 3 * total pair_nodes l) by (apply Q; intros s p s' _ X; apply ex_assign_size in X; lia). change (ce new_ex) with 0 in Z. lia.
  Qed.

  (** ** Type definitions *)

  Lemma put_le k v o a : ow o <= a -> ow (oput k v o) <= a + (1 + rw v).
  Proof. intros H. pose proof (ow_oput k v o). lia. Qed.
  Lemma opt_le k v o a : ow o <= a -> ow (oput_opt k v o) <= a + ew v.
  Proof. intros H. pose proof (ow_opt k v o). lia. Qed.
  Lemma if_le c k v o a n : rw v <= n -> ow o <= a -> ow (oput_if c k v o) <= a + iw c (1 + n).
  Proof. intros Hn H. pose proof (ow_if c k v o) as B. destruct c; cbn [iw] in *; lia. Qed.
  Lemma all_le {K V} (kf : K -> gkey) (vf : V -> res node) l o a : ow o <= a -> ow (oput_all kf vf l o) <= a + aw (fun v => rw (vf v)) l.
  Proof. intros H. pose proof (ow_all kf vf l o). unfold aw. lia. Qed.

  Definition tw (d : dtype) : nat := rw (to_yaml d).
  Definition fw (m : amap string dtype) : nat := 1 + sumw tw m.
  Definition exw (e : ex) : nat := rw (ex_to_yaml e).
  (** What a map adds when it is written only if it has entries *)
  Definition mw {V} (f : V -> nat) (m : amap string V) : nat := iw (nonempty m) (1 + (1 + sumw f m)).
  Definition lw (l : option (list gval)) : nat := match l with Some l => 2 + total gw l | None => 0 end.
  Definition slw (l : option (list string)) : nat := match l with Some l => 2 + List.length l | None => 0 end.

  Definition cb (b : base) : nat := 1 + 1 + aw gw (ents (b_extra b)).
  Definition cx (x : ext) : nat := ew (str_opt (x_display x)) + ew (str_opt (x_descr x)) + iw (negb (x_required x)) (1 + 1) + aw unw (ents (x_anns x)) + ew (option_map xml_node (x_xml x)).
  Definition cc (c : common) : nat := ew (option_map to_node (c_def c)) + lw (c_enum c) + ew (option_map ex_to_yaml (c_example c)) + mw exw (c_examples c).
  Definition cs (s : spec dtype) : nat :=
    match s with
    | SNone => 0
    | SArray u mn mx it => iw (negb (Bool.eqb u ArrayDefaultUniqueItems)) 2 + iw (negb (mn =? ArrayDefaultMinItems)%Z) 2 + iw (negb (mx =? ArrayDefaultMaxItems)%Z) 2 + ew (option_map to_yaml it)
    | SDatetime f => ew (str_opt f)
    | SFile ft mn mx => slw ft + iw (negb (mn =? FileDefaultMinLength)%Z) 2 + iw (negb (mx =? FileDefaultMaxLength)%Z) 2
    | SInteger f mn mx mu => ew (str_opt f) + ew (int_opt mn) + ew (int_opt mx) + ew (float_opt mu)
    | SNumber f mn mx mu => ew (str_opt f) + ew (float_opt mn) + ew (float_opt mx) + ew (float_opt mu)
    | SObject ps mn mx ad di dv => iw (negb ad) 2 + ew (int_opt mn) + ew (int_opt mx) + ew (str_opt di) + ew (option_map to_node dv) + mw tw ps
    | SString p mn mx => ew (str_opt p) + iw (0 <? mn)%Z 2 + ew (int_opt mx)
    end.
  Definition ct (d : dtype) : nat :=
    match d with
    | TBase b => cb b
    | TExt b x f c s => cb b + cx x + mw fw f + cc c + cs s
    end.

  Lemma total_one {A} l : total (fun _ : A => 1) l = List.length l.
  Proof. unfold total. induction l as [|a l IH]; [reflexivity|]. cbn [map list_sum fold_right List.length]. change (fold_right Nat.add 0 (map (fun _ : A => 1) l)) with (list_sum (map (fun _ : A => 1) l)). lia. Qed.
  Lemma strings_size l : nodes (Seq TSeq (map str_node l)) = 1 + List.length l.
  Proof. rewrite nodes_seq, total_map. cbn [nodes str_node]. rewrite total_one. reflexivity. Qed.
  Lemma types_size m : rw (types_to_yaml to_yaml m) <= 1 + sumw tw m.
  Proof. exact (map_to_yaml_size skey_node to_yaml m skey_one). Qed.
  Lemma facets_size m : rw (facets_to_yaml to_yaml m) <= 1 + sumw fw m.
  Proof.
    pose proof (map_to_yaml_size skey_node (types_to_yaml to_yaml) m skey_one) as B. assert (total (fun e => 2 + rw (types_to_yaml to_yaml (snd e))) (ents m) <= sumw fw m); [|unfold facets_to_yaml; lia].
    unfold sumw. apply total_le. intros e _. pose proof (types_size (snd e)). unfold fw. lia.
  Qed.
  Lemma examples_size m : rw (examples_to_yaml m) <= 1 + sumw exw m.
  Proof. exact (map_to_yaml_size skey_node ex_to_yaml m skey_one). Qed.
  Lemma enum_size l : ew (option_map (fun l => to_node (GList l)) l) <= lw l.
  Proof. destruct l as [l|]; cbn [option_map ew lw]; [|lia]. pose proof (gw_list l) as B. unfold gw at 1 in B. lia. Qed.
  Lemma strs_size l : ew (option_map (fun l => Ok (Seq TSeq (map str_node l))) l) = slw l.
  Proof. destruct l as [l|]; [|reflexivity]. cbn [option_map ew slw rw]. rewrite strings_size. lia. Qed.

  Lemma spec_size s o : ow (spec_marshal to_yaml s o) <= ow o + cs s.
  Proof.
    destruct s as [|u mn mx it|f|ft mn mx|f mn mx mu|f mn mx mu|ps mn mx ad di dv|p mn mx]; cbn [spec_marshal cs]; rewrite ?Nat.add_assoc.
    - lia.
    - apply opt_le. repeat (apply (if_le _ _ _ _ _ 1); [reflexivity|]). lia.
    - apply opt_le. lia.
    - repeat (apply (if_le _ _ _ _ _ 1); [reflexivity|]). rewrite <- strs_size. apply opt_le. lia.
    - repeat apply opt_le. lia.
    - repeat apply opt_le. lia.
    - apply if_le; [apply types_size|]. repeat apply opt_le. apply (if_le _ _ _ _ _ 1); [reflexivity|]. lia.
    - apply opt_le. apply (if_le _ _ _ _ _ 1); [reflexivity|]. apply opt_le. lia.
  Qed.
  Lemma base_size b o : ow (base_marshal b o) <= ow o + cb b.
  Proof. unfold base_marshal, cb. rewrite Nat.add_assoc. apply all_le. exact (put_le (KStr KeyType) (Ok (str_node (b_schema b))) o (ow o) (le_n _)). Qed.
  Lemma include_size b o : ow (include_marshal b o) <= ow o + cb b.
  Proof. unfold include_marshal, cb. rewrite Nat.add_assoc. apply all_le. exact (put_le (KStr KeyType) (Ok (Scal TInclude (b_schema b))) o (ow o) (le_n _)). Qed.
  Lemma ext_size b x f o : ow (ext_marshal to_yaml b x f o) <= ow o + cb b + cx x + mw fw f.
  Proof.
    unfold ext_marshal. set (o1 := oput_opt (KStr KeyDescription) (str_opt (x_descr x)) (oput_opt (KStr KeyDisplayName) (str_opt (x_display x)) o)).
    assert (B1 : ow o1 <= ow o + ew (str_opt (x_display x)) + ew (str_opt (x_descr x))) by (unfold o1; repeat apply opt_le; lia). pose proof (base_size b o1) as B2.
    assert (B3 : ow (oput_opt (KStr KeyXML) (option_map xml_node (x_xml x)) (oput_if (nonempty f) (KStr KeyFacets) (facets_to_yaml to_yaml f) (oput_all KStr untyped_to_yaml (ents (x_anns x)) (oput_if (negb (x_required x)) (KStr KeyRequired) (Ok (bool_node (x_required x))) (base_marshal b o1)))))
      <= ow (base_marshal b o1) + iw (negb (x_required x)) (1 + 1) + aw unw (ents (x_anns x)) + mw fw f + ew (option_map xml_node (x_xml x))).
    { apply opt_le. apply if_le; [apply facets_size|]. apply all_le. apply (if_le _ _ _ _ _ 1); [reflexivity|]. lia. }
    unfold cx. lia.
  Qed.
  Lemma marshal_size d : ow (type_marshal to_yaml d []) <= ct d.
  Proof.
    destruct d as [b|b x f c s]; cbn [type_marshal ct].
    - unfold short_marshal. pose proof (base_size b []) as B1. pose proof (include_size b []) as B2. change (ow []) with 0 in *. destruct (b_kind b); lia.
    - unfold full_marshal. set (o1 := oput_opt (KStr KeyDefault) (option_map to_node (c_def c)) []). assert (B1 : ow o1 <= 0 + ew (option_map to_node (c_def c))) by (apply opt_le; reflexivity). pose proof (ext_size b x f o1) as B2. pose proof (spec_size s (ext_marshal to_yaml b x f o1)) as B3. set (o2 := spec_marshal _ _ _) in *.
      assert (B4 : ow (oput_if (nonempty (c_examples c)) (KStr KeyExamples) (examples_to_yaml (c_examples c)) (oput_opt (KStr KeyExample) (option_map ex_to_yaml (c_example c)) (oput_opt (KStr KeyEnum) (option_map (fun l => to_node (GList l)) (c_enum c)) o2)))
        <= ow o2 + ew (option_map (fun l => to_node (GList l)) (c_enum c)) + ew (option_map ex_to_yaml (c_example c)) + mw exw (c_examples c)).
      { apply if_le; [apply examples_size|]. repeat apply opt_le. lia. }
      pose proof (enum_size (c_enum c)). unfold cc. lia.
  Qed.
  Lemma sget_size k o r : sget gkey_eqb k o = Some r -> rw r <= ow o.
  Proof.
    unfold sget. intros E. destruct (find _ o) as [[k' r']|] eqn:Ef; [|discriminate E]. injection E as <-. apply find_some in Ef. destruct Ef as [I _]. unfold ow. induction o as [|e o IH]; [destruct I|]. rewrite total_cons. destruct I as [->|I]; [cbn [snd]; lia|]. specialize (IH I). lia.
  Qed.
  Lemma tw_size d : tw d <= 1 + ct d.
  Proof.
    unfold tw. rewrite to_yaml_eq. unfold to_yaml_body, short_or_full. pose proof (marshal_size d) as B. set (o := type_marshal _ d []) in *. pose proof (out_size o). destruct (is_short o); [|lia]. destruct (sget gkey_eqb (KStr KeyType) o) as [r|] eqn:E; [apply sget_size in E; lia|]. cbn [rw nodes null_node]. lia.
  Qed.

  (** ** Reading type definitions *)

  Lemma str_opt_le o : ew (str_opt o) <= 2. Proof. destruct o; cbn; lia. Qed.
  Lemma int_opt_le o : ew (int_opt o) <= 2. Proof. destruct o; cbn; lia. Qed.
  Lemma float_opt_le o : ew (float_opt o) <= 2. Proof. destruct o; cbn; lia. Qed.
  Lemma mw_step {V} (f : V -> nat) m m' k : sumw f m' + 3 <= sumw f m + k -> mw f m' <= mw f m + k.
  Proof. unfold mw. intros H. destruct m as [l o], m' as [l' o']. unfold nonempty in *. destruct l, l'; cbn [ents oord negb] in *; unfold sumw, total in *; cbn [ents map list_sum fold_right iw negb] in *; cbn; cbn in H; lia. Qed.

  Lemma string_list_size n o v : run_assign (as_string_list n o) = Ok v -> slw v <= 1 + nodes n.
  Proof.
    unfold as_string_list, seq_for_each. destruct n as [t s|t l|t l]; try discriminate. rewrite nodes_seq. assert (Z : forall l acc r u, loop string_list_step acc l = (r, Ok u) -> List.length r <= List.length acc + total nodes l).
    { clear. induction l as [|n l IH]; intros acc r u H; cbn [loop] in H; [injection H as <- <-; lia|]. unfold string_list_step at 1 in H. destruct (to_str n) as [s| |]; try discriminate H. apply IH in H. rewrite app_length in H. cbn [List.length] in H. rewrite total_cons. pose proof (nodes_pos n). lia. }
    destruct (loop string_list_step [] l) as [r [u| |]] eqn:E; cbn [run_assign]; intros H; try discriminate H. injection H as <-. apply Z in E. cbn [slw List.length] in *. lia.
  Qed.
  Lemma enum_elem_size k n g : enum_elem k n = Ok g -> gw g <= nodes n.
  Proof.
    pose proof (nodes_pos n) as P. destruct k; cbn [enum_elem]; intros H; try discriminate H.
    all: try (injection H as <-; reflexivity).
    all: try (destruct (to_str n); cbn [bind] in H; try discriminate H; injection H as <-; exact P).
    all: try (destruct (to_bool n); cbn [bind] in H; try discriminate H; injection H as <-; exact P).
    all: try (destruct (to_int n); cbn [bind] in H; try discriminate H; injection H as <-; exact P).
    all: try (destruct (to_float n); cbn [bind] in H; try discriminate H; injection H as <-; exact P).
  Qed.
  Lemma read_enum_size k o n o' : read_enum k o n = Ok o' -> lw o' <= lw o + 1 + nodes n.
  Proof.
    unfold read_enum, seq_fold. destruct n as [t s|t l|t l]; try discriminate. rewrite nodes_seq.
    assert (Z : forall l o o', fold_res (fun acc cur => do v <- enum_elem k cur; Ok (Some (opt_list acc ++ [v]))) o l = Ok o' -> total gw (opt_list o') <= total gw (opt_list o) + total nodes l /\ (o' = None -> o = None)).
    { clear. induction l as [|n l IH]; intros o o' H; cbn [fold_res] in H; [injection H as <-; split; [lia|tauto]|]. destruct (enum_elem k n) as [g| |] eqn:E; cbn [bind] in H; try discriminate H. apply enum_elem_size in E. apply IH in H. destruct H as [H1 H2]. split; [|intros X; specialize (H2 X); discriminate H2]. cbn [opt_list] in H1. rewrite total_app in H1. rewrite total_cons. unfold total in H1 at 3. cbn [map list_sum fold_right] in H1. lia. }
    intros H. apply Z in H. destruct H as [H1 H2]. destruct o as [o|], o' as [o'|]; cbn [lw opt_list] in *; try lia. unfold total at 2 in H1. cbn [map list_sum fold_right] in H1. lia.
  Qed.
  Definition below (n : node) : Prop := forall v d, nodes v < nodes n -> hat v = Ok d -> tw d <= 3 * nodes v.
  Lemma below_in n v : below n -> nodes v <= nodes n -> below v.
  Proof. intros B L w d Lw. apply B. lia. Qed.
  Lemma in_map_less t l k v : In (k, v) l -> nodes v < nodes (Map t l).
  Proof. intros I. rewrite nodes_map. induction l as [|e l IH]; [destruct I|]. rewrite total_cons. destruct I as [->|I]; [unfold pair_nodes at 1; cbn [fst snd]; lia|]. specialize (IH I). lia. Qed.
  Lemma types_read n m m' : below n -> read_amap hat m n = Ok m' -> sumw tw m' + 3 <= sumw tw m + 3 * nodes n.
  Proof. intros B H. apply (read_amap_size hat tw m n m' H). intros t l k v x -> I E. pose proof (B v x (in_map_less t l k v I) E). lia. Qed.
  Lemma properties_read n m m' : below n -> read_properties hat m n = Ok m' -> sumw tw m' + 3 <= sumw tw m + 3 * nodes n.
  Proof.
    intros B H. apply (read_amap_size _ tw m n m' H). intros t l k v x -> I E. destruct (hat v) as [d| |] eqn:Ed; cbn [bind] in E; try discriminate E. destruct d; cbn [as_property] in E; try discriminate E. injection E as <-. pose proof (B v _ (in_map_less t l k v I) Ed). lia.
  Qed.
  Lemma facets_read n m m' : below n -> read_facets hat m n = Ok m' -> sumw fw m' + 3 <= sumw fw m + 3 * nodes n.
  Proof.
    intros B H. apply (read_amap_size _ fw m n m' H). intros t l k v x -> I E. pose proof (types_read v anew x (below_in _ v B (Nat.lt_le_incl _ _ (in_map_less t l k v I))) E) as Z. change (sumw tw (@anew string dtype)) with 0 in Z. unfold fw. lia.
  Qed.
  Ltac took H := match type of H with
    | bind (run_assign ?r) _ = Ok _ => let v := fresh "v" in destruct (run_assign r) as [v| |]; cbn [bind] in H; try discriminate H
    end.
  Ltac bounds := repeat match goal with
    | |- context [ew (str_opt ?o)] => lazymatch goal with H : ew (str_opt o) <= 2 |- _ => fail | _ => pose proof (str_opt_le o) end
    | |- context [ew (int_opt ?o)] => lazymatch goal with H : ew (int_opt o) <= 2 |- _ => fail | _ => pose proof (int_opt_le o) end
    | |- context [ew (float_opt ?o)] => lazymatch goal with H : ew (float_opt o) <= 2 |- _ => fail | _ => pose proof (float_opt_le o) end
    | |- context [iw ?c 2] => lazymatch goal with H : iw c 2 <= 2 |- _ => fail | _ => pose proof (iw_le c 2) end
    end.
  Lemma spec_assign_size s k v r s' : below v -> (forall d, hat v = Ok d -> tw d <= 3 * nodes v) -> spec_assign hat s k v = Some r -> r = Ok s' -> cs s' <= cs s + 3 * nodes v + 1.
  Proof.
    intros B A. pose proof (nodes_pos v) as P. destruct s as [|u mn mx it|f|ft mn mx|f mn mx mu|f mn mx mu|ps mn mx ad di dv|p mn mx]; cbn [spec_assign]; try discriminate.
    all: repeat match goal with |- context [if String.eqb ?y ?x then _ else _] => destruct (String.eqb y x) end; intros E; try discriminate E; injection E as <-; intros E.
    all: try (match type of E with bind (run_assign (as_string_list _ _)) _ = _ => idtac end; match type of E with bind ?r _ = _ => destruct r as [w| |] eqn:Ew end; cbn [bind] in E; try discriminate E; injection E as <-; apply string_list_size in Ew; cbn [cs]; lia).
    all: try (match type of E with bind (run_assign ?r) _ = Ok _ => destruct (run_assign r) as [w| |]; cbn [bind] in E; try discriminate E; injection E as <-; cbn [cs]; bounds; lia end).
    all: try (match type of E with bind (?h ?y) _ = Ok _ => destruct (h y) as [w| |]; cbn [bind] in E; try discriminate E; injection E as <-; cbn [cs]; bounds; lia end).
    - destruct (hat v) as [d| |]; cbn [bind] in E; try discriminate E. injection E as <-. cbn [cs option_map ew]. specialize (A d eq_refl). unfold tw in A. lia.
    - destruct (read_properties hat ps v) as [m| |] eqn:Em; cbn [bind] in E; try discriminate E. injection E as <-. apply (properties_read v ps m B) in Em. apply mw_step in Em. cbn [cs]. lia.
    - injection E as <-. cbn [cs option_map ew to_node rw]. lia.
  Qed.
  Lemma base_assign_size b k v b' : base_assign b k v = Ok b' -> cb b' <= cb b + 1 + nodes v.
  Proof.
    unfold base_assign. destruct (_ || _)%bool.
    - destruct (to_str v) as [s| |]; cbn [bind]; intros E; try discriminate E. injection E as <-. unfold cb, base_set_schema. cbn [b_extra]. lia.
    - intros E. injection E as <-. unfold cb. cbn [b_extra]. pose proof (aw_kput gw (KStr (value k)) (GNode v) (b_extra b)) as B. rewrite gw_node in B. lia.
  Qed.
  Lemma xml_le x : ew (option_map xml_node x) <= 2. Proof. destruct x; cbn; lia. Qed.
  Lemma ext_assign_size b x f k v b' x' f' : below v -> ext_assign hat b x f k v = Ok (b', x', f') -> cb b' + cx x' + mw fw f' <= cb b + cx x + mw fw f + 3 * nodes v + 1.
  Proof.
    intros B. unfold ext_assign. pose proof (nodes_pos v) as P. intros H.
    destruct (String.eqb (value k) KeyDisplayName); [destruct (run_assign _) as [w| |]; cbn [bind] in H; try discriminate H; injection H as <- <- <-; unfold cx; cbn [x_display x_descr x_anns x_xml x_required]; pose proof (str_opt_le w); lia|].
    destruct (String.eqb (value k) KeyDescription); [destruct (run_assign _) as [w| |]; cbn [bind] in H; try discriminate H; injection H as <- <- <-; unfold cx; cbn [x_display x_descr x_anns x_xml x_required]; pose proof (str_opt_le w); lia|].
    destruct (String.eqb (value k) KeyFacets); [destruct (read_facets hat f v) as [m| |] eqn:Em; cbn [bind] in H; try discriminate H; injection H as <- <- <-; apply (facets_read v f m B) in Em; apply mw_step in Em; lia|].
    destruct (String.eqb (value k) KeyXML); [destruct (xml_unmarshal v new_xml) as [w| |]; cbn [bind] in H; try discriminate H; injection H as <- <- <-; unfold cx; cbn [x_display x_descr x_anns x_xml x_required]; pose proof (xml_le (Some w)); lia|].
    destruct (if is_string k then _ else _) as [[a|]| |] eqn:E; cbn [bind] in H; try discriminate H.
    - injection H as <- <- <-. destruct (is_string k); [|discriminate E]. unfold annotations_in in E. destruct (value k) as [|c s]; [discriminate E|]. destruct (Ascii.eqb c "("); [|discriminate E]. destruct (read_annotation v) as [a'| |] eqn:Ea; cbn [bind] in E; try discriminate E. injection E as <-. apply annotation_read in Ea. unfold cx. cbn [x_display x_descr x_anns x_xml x_required]. pose proof (aw_mput unw (String c s) a' (x_anns x)). unfold unw in *. lia.
    - destruct (base_assign b k v) as [b0| |] eqn:Eb; cbn [bind] in H; try discriminate H. injection H as <- <- <-. apply base_assign_size in Eb. lia.
  Qed.
  Lemma type_assign_size d e d' : below (snd e) -> (forall x, hat (snd e) = Ok x -> tw x <= 3 * nodes (snd e)) -> type_assign hat d e = Ok d' -> ct d' <= ct d + 3 * nodes (snd e) + 1.
  Proof.
    destruct e as [k v]. cbn [fst snd]. intros B A. unfold type_assign. cbn [fst snd]. pose proof (nodes_pos v) as P. destruct d as [b|b x f c s]; intros H.
    - destruct (base_assign b k v) as [b0| |] eqn:Eb; cbn [bind] in H; try discriminate H. injection H as <-. apply base_assign_size in Eb. cbn [ct]. lia.
    - destruct (String.eqb (value k) KeyExample).
      { destruct (has_example (b_kind b)); [|discriminate H]. destruct (read_ex (b_kind b) v) as [w| |] eqn:E; cbn [bind] in H; try discriminate H. injection H as <-. apply read_ex_size in E. cbn [ct]. unfold cc. cbn [c_def c_example c_examples c_enum option_map ew]. lia. }
      destruct (String.eqb (value k) KeyExamples).
      { destruct (read_examples (b_kind b) (c_examples c) v) as [w| |] eqn:E; cbn [bind] in H; try discriminate H. injection H as <-. apply (read_amap_size (read_ex (b_kind b)) exw) in E; [apply mw_step in E; cbn [ct]; unfold cc; cbn [c_def c_example c_examples c_enum]; lia|]. intros t l k' v' x' _ _ E'. apply read_ex_size in E'. unfold exw. lia. }
      destruct (String.eqb (value k) KeyEnum).
      { destruct (read_enum (b_kind b) (c_enum c) v) as [w| |] eqn:E; cbn [bind] in H; try discriminate H. injection H as <-. apply read_enum_size in E. cbn [ct]. unfold cc. cbn [c_def c_example c_examples c_enum]. lia. }
      destruct (String.eqb (value k) KeyRequired).
      { destruct (run_assign _) as [w| |]; cbn [bind] in H; try discriminate H. injection H as <-. cbn [ct]. unfold cx. cbn [x_display x_descr x_anns x_xml x_required]. pose proof (iw_le (negb w) (1 + 1)). lia. }
      destruct (spec_assign hat s (value k) v) as [r|] eqn:E.
      { destruct r as [s'| |]; cbn [bind] in H; try discriminate H. injection H as <-. pose proof (spec_assign_size s (value k) v (Ok s') s' B A E eq_refl). cbn [ct]. lia. }
      destruct (ext_assign hat b x f k v) as [[[b' x'] f']| |] eqn:Ee; cbn [bind] in H; try discriminate H. injection H as <-. apply (ext_assign_size b x f k v b' x' f' B) in Ee. cbn [ct]. lia.
  Qed.
  Lemma ct_new k : ct (new_type k) = 2.
  Proof. destruct k; reflexivity. Qed.
  Lemma ct_set s k : ct (set_schema s (new_type k)) = 2.
  Proof. destruct k; reflexivity. Qed.
  Lemma ct_kind s : ct (type_to_kind s) = 2.
  Proof. unfold type_to_kind. repeat match goal with |- ct (if ?c then _ else _) = 2 => destruct c; [first [apply ct_new|apply ct_set]|] end. apply ct_set. Qed.
  Lemma ct_sift l d : sift_type l = Ok d -> ct d = 2.
  Proof.
    unfold sift_type. destruct (sift_scan l false false) as [[[tmp|] ps] it].
    - destruct (is_string tmp); [intros E; apply (f_equal (fun r => match r with Ok x => x | _ => d end)) in E; cbv beta iota in E; subst d; apply ct_kind|]. destruct (is_seq tmp); [discriminate|]. destruct (node_tag tmp); intros E; try discriminate E; injection E as <-; reflexivity.
    - destruct ps; [|destruct it]; intros E; injection E as <-; reflexivity.
  Qed.
  Lemma hat_size_lt m : forall n d, nodes n < m -> hat n = Ok d -> tw d <= 3 * nodes n.
  Proof.
    induction m as [|m IH]; intros n d L H; [lia|]. pose proof (tw_size d) as T. pose proof (nodes_pos n) as P. rewrite hat_eq in H. unfold hat_body in H. destruct (is_string n).
    { injection H as <-. rewrite ct_kind in T. lia. }
    destruct n as [t s|t l|t l].
    - destruct t; try discriminate H. assert (Z : ct d = 2) by (injection H as <-; reflexivity). lia.
    - discriminate H.
    - destruct (sift_type l) as [d0| |] eqn:E0; cbn [bind] in H; try discriminate H. apply ct_sift in E0.
      pose proof (fold_size (type_assign hat) ct l d0 d H) as Z. rewrite E0 in Z. rewrite nodes_map in *. assert (ct d + 2 * List.length l <= 2 + 3 * total pair_nodes l); [|lia].
      apply Z. intros s [k v] s' I. pose proof (in_map_less t l k v I) as Lv. rewrite nodes_map in Lv. cbn [snd]. apply (type_assign_size s (k, v) s'); cbn [snd].
      + intros w dw Lw. apply IH. lia.
      + intros dw. apply IH. lia.
  Qed.
  Lemma hat_size n d : hat n = Ok d -> tw d <= 3 * nodes n.
  Proof. apply (hat_size_lt (Datatypes.S (nodes n))). lia. Qed.
  Lemma below_all n : below n. Proof. intros v d _. apply hat_size. Qed.

  (** ** API documents *)

  Definition untw (m : untyped) : nat := mw gw m.
  Definition dlw {A} (l : option (list A)) : nat := match l with Some l => 2 + List.length l | None => 0 end.
  Definition one_str (s : string) : nat := 1.
  Definition ca (a : api) : nat :=
    1 + 1 + ew (str_opt (a_version a)) + ew (str_opt (a_baseURI a)) + ew (str_opt (a_description a)) + slw (a_protocols a) + slw (a_mediaType a) + dlw (a_documentation a) + slw (a_securedBy a)
    + mw one_str (a_uses a) + mw gw (a_securitySchemes a) + mw gw (a_baseURIParameters a) + mw gw (a_traits a) + mw gw (a_annotationTypes a) + mw gw (a_resourceTypes a)
    + aw unw (ents (a_annotations a)) + aw gw (ents (a_extra a)) + aw gw (ents (a_resources a)) + mw tw (a_types a).
  Lemma strings_opt_size l : ew (option_map strings_node l) = slw l. Proof. exact (strs_size l). Qed.
  Lemma docs_size l : ew (option_map docs_node l) <= dlw l.
  Proof.
    destruct l as [l|]; [|reflexivity]. cbn [option_map ew dlw]. unfold docs_node. destruct (map_res doc_node l) as [ns| |] eqn:E; cbn [bind rw]; try lia. rewrite nodes_seq. assert (total nodes ns = List.length l); [|lia]. revert ns E. induction l as [|d l IH]; intros ns E; cbn [map_res] in E; [injection E as <-; reflexivity|].
    unfold doc_node at 1 in E. cbn [bind] in E. destruct (map_res doc_node l) as [ms| |]; try discriminate E. injection E as <-. rewrite total_cons. specialize (IH ms eq_refl). cbn [nodes map list_sum fold_right List.length]. lia.
  Qed.
  Lemma string_map_size m : rw (string_map_node m) <= 1 + sumw one_str m.
  Proof. exact (map_to_yaml_size skey_node (fun s => Ok (str_node s)) m skey_one). Qed.
  Lemma opt_le' k v o a n : ew v <= n -> ow o <= a -> ow (oput_opt k v o) <= a + n.
  Proof. intros Hn H. pose proof (ow_opt k v o). lia. Qed.
  Lemma api_size a : rw (api_marshal a) <= 1 + ca a.
  Proof.
    unfold api_marshal. pose proof (out_size (api_out a)) as B. assert (Z : ow (api_out a) <= ca a); [|lia]. unfold api_out, ca.
    apply if_le; [apply types_size|]. do 3 apply all_le. do 5 (apply if_le; [apply untyped_yaml|]). apply if_le; [apply string_map_size|].
    apply opt_le'; [rewrite strings_opt_size; reflexivity|]. apply opt_le'; [apply docs_size|]. do 2 (apply opt_le'; [rewrite strings_opt_size; reflexivity|]). do 3 apply opt_le. exact (ow_oput (KStr KeyTitle) (Ok (str_node (a_title a))) []).
  Qed.
  Lemma strings_read n m m' : read_strings m n = Ok m' -> sumw one_str m' + 3 <= sumw one_str m + 3 * nodes n.
  Proof. intros H. apply (read_amap_size to_str one_str m n m' H). intros t l k v x _ _ _. unfold one_str. pose proof (nodes_pos v). lia. Qed.
  Lemma media_size n o o' : read_media n o = Ok o' -> slw o' <= slw o + 1 + nodes n + 1.
  Proof.
    unfold read_media. pose proof (nodes_pos n). destruct (is_string n); [|intros H1; apply string_list_size in H1; lia]. intros E. injection E as <-. destruct o as [l|]; cbn [slw]; rewrite ?app_length; cbn [List.length]; lia.
  Qed.
  Lemma docs_read n o o' : read_docs n o = Ok o' -> dlw o' <= dlw o + 1 + nodes n.
  Proof.
    unfold read_docs, seq_fold. destruct n as [t s|t l|t l]; try discriminate. rewrite nodes_seq.
    assert (Z : forall l (o o' : option (list doc)), fold_res read_doc o l = Ok o' -> List.length (opt_list o') <= List.length (opt_list o) + total nodes l /\ (o' = None -> o = None)).
    { clear. induction l as [|n l IH]; intros o o' H; cbn [fold_res] in H; [injection H as <-; split; [lia|tauto]|]. destruct (read_doc o n) as [o1| |] eqn:E; cbn [bind] in H; try discriminate H. unfold read_doc in E. destruct (doc_unmarshal n new_doc) as [d| |]; cbn [bind] in E; try discriminate E. injection E as <-. apply IH in H. destruct H as [H1 H2]. split; [|intros X; specialize (H2 X); discriminate H2]. cbn [opt_list] in H1. rewrite app_length in H1. rewrite total_cons. pose proof (nodes_pos n). change (match o with Some l => l | None => [] end) with (opt_list o) in H1. cbn [List.length] in H1. lia. }
    intros H. apply Z in H. destruct H as [H1 H2]. destruct o as [o|], o' as [o'|]; cbn [dlw opt_list List.length] in *; lia.
  Qed.
  Ltac api_fields := cbn [a_set_title a_set_version a_set_baseURI a_set_description a_set_protocols a_set_mediaType a_set_documentation a_set_securedBy a_set_uses a_set_securitySchemes a_set_baseURIParameters a_set_traits a_set_annotationTypes a_set_resourceTypes a_set_types a_set_annotations a_set_extra a_set_resources
    a_title a_version a_baseURI a_description a_protocols a_mediaType a_documentation a_securedBy a_uses a_securitySchemes a_baseURIParameters a_traits a_annotationTypes a_resourceTypes a_types a_annotations a_extra a_resources].
  Lemma api_assign_size a e a' : api_assign a e = Ok a' -> ca a' <= ca a + 3 * nodes (snd e) + 1.
  Proof.
    destruct e as [k v]. unfold api_assign. cbn [fst snd]. pose proof (nodes_pos v) as P. intros H.
    assert (X : forall s, ca (a_set_extra (kput s (GNode v) (a_extra a)) a) <= ca a + 3 * nodes v + 1).
    { intros s. unfold ca. api_fields. pose proof (aw_kput gw s (GNode v) (a_extra a)) as B. rewrite gw_node in B. lia. }
    destruct (negb (is_string k)); [destruct (to_scalar k) as [s| |]; cbn [bind] in H; try discriminate H; injection H as <-; apply X|].
    destruct (value k) as [|c s]; [discriminate H|]. destruct (Ascii.eqb c "(").
    { destruct (read_annotation v) as [m| |] eqn:E; cbn [bind] in H; try discriminate H. injection H as <-. apply annotation_read in E. unfold ca. api_fields. pose proof (aw_mput unw (String c s) m (a_annotations a)). unfold unw in *. lia. }
    destruct (Ascii.eqb c "/").
    { injection H as <-. unfold ca. api_fields. pose proof (aw_mput gw (String c s) (GNode v) (a_resources a)) as B. rewrite gw_node in B. lia. }
    destruct (String.eqb _ KeyTitle); [destruct (run_assign _) as [w| |]; cbn [bind] in H; try discriminate H; injection H as <-; unfold ca; api_fields; lia|].
    do 3 (destruct (String.eqb _ _); [destruct (run_assign _) as [w| |]; cbn [bind] in H; try discriminate H; injection H as <-; unfold ca; api_fields; pose proof (str_opt_le w); lia|]).
    destruct (String.eqb _ KeyProtocols); [destruct (run_assign _) as [w| |] eqn:E; cbn [bind] in H; try discriminate H; injection H as <-; apply string_list_size in E; unfold ca; api_fields; lia|].
    destruct (String.eqb _ KeyMediaType); [destruct (read_media _ _) as [w| |] eqn:E; cbn [bind] in H; try discriminate H; injection H as <-; apply media_size in E; unfold ca; api_fields; lia|].
    destruct (String.eqb _ KeyDocumentation); [destruct (read_docs _ _) as [w| |] eqn:E; cbn [bind] in H; try discriminate H; injection H as <-; apply docs_read in E; unfold ca; api_fields; lia|].
    destruct (String.eqb _ KeySecuredBy); [destruct (run_assign _) as [w| |] eqn:E; cbn [bind] in H; try discriminate H; injection H as <-; apply string_list_size in E; unfold ca; api_fields; lia|].
    destruct (String.eqb _ KeyUses); [destruct (read_strings _ _) as [w| |] eqn:E; cbn [bind] in H; try discriminate H; injection H as <-; apply strings_read in E; apply mw_step in E; unfold ca; api_fields; lia|].
    do 5 (destruct (String.eqb _ _); [destruct (read_untyped _ _) as [w| |] eqn:E; cbn [bind] in H; try discriminate H; injection H as <-; apply untyped_read in E; apply mw_step in E; unfold ca; api_fields; lia|]).
    destruct (_ || _)%bool; [destruct (read_types _ _) as [w| |] eqn:E; cbn [bind] in H; try discriminate H; injection H as <-; apply (types_read v (a_types a) w (below_all v)) in E; apply mw_step in E; unfold ca; api_fields; lia|].
    destruct (to_scalar k) as [z| |]; cbn [bind] in H; try discriminate H. injection H as <-. apply X.
  Qed.
  Lemma api_saved n a n' : api_unmarshal n new_api = Ok a -> api_marshal a = Ok n' -> nodes n' <= 3 * nodes n.
  Proof.
    unfold api_unmarshal, map_fold. destruct n as [t s|t l|t l]; try discriminate. intros H M. pose proof (api_size a) as B. rewrite M in B. cbn [rw] in B. pose proof (fold_size api_assign ca l new_api a H) as Z. rewrite nodes_map. change (ca new_api) with 2 in Z. assert (ca a + 2 * List.length l <= 2 + 3 * total pair_nodes l); [|lia]. apply Z. intros s e s' _. apply api_assign_size.
  Qed.

  (** ** Libraries *)

  Definition cl (l : library) : nat :=
    ew (str_opt (l_usage l)) + mw one_str (l_uses l) + mw gw (l_securitySchemes l) + mw gw (l_traits l) + mw gw (l_annotationTypes l) + aw unw (ents (l_annotations l)) + mw gw (l_resourceTypes l) + aw gw (ents (l_extra l)) + mw tw (l_types l).
  Lemma lib_size l : rw (lib_marshal l) <= 1 + cl l.
  Proof.
    unfold lib_marshal. pose proof (out_size (lib_out l)) as B. assert (Z : ow (lib_out l) <= cl l); [|lia]. unfold lib_out, cl.
    apply if_le; [apply types_size|]. apply all_le. apply if_le; [apply untyped_yaml|]. apply all_le. do 3 (apply if_le; [apply untyped_yaml|]). apply if_le; [apply string_map_size|]. exact (ow_opt (KStr KeyUsage) (str_opt (l_usage l)) []).
  Qed.
  Ltac lib_fields := cbn [l_set_annotations l_set_annotationTypes l_set_extra l_set_uses l_set_resourceTypes l_set_securitySchemes l_set_traits l_set_types l_set_usage l_annotations l_annotationTypes l_extra l_uses l_resourceTypes l_securitySchemes l_traits l_types l_usage].
  Lemma annotations_read n m m' : read_annotations m n = Ok m' -> aw unw (ents m') + 3 <= aw unw (ents m) + 3 * nodes n.
  Proof. intros H. apply (read_amap_total read_annotation (fun x => 1 + unw x) m n m' H). intros t l k v x _ _ E. apply annotation_read in E. unfold unw. lia. Qed.
  Lemma lib_assign_size l e l' : lib_assign l e = Ok l' -> cl l' <= cl l + 3 * nodes (snd e) + 1.
  Proof.
    destruct e as [k v]. unfold lib_assign. cbn [fst snd]. pose proof (nodes_pos v) as P. intros H.
    assert (X : forall s, cl (l_set_extra (kput s (GNode v) (l_extra l)) l) <= cl l + 3 * nodes v + 1).
    { intros s. unfold cl. lib_fields. pose proof (aw_kput gw s (GNode v) (l_extra l)) as B. rewrite gw_node in B. lia. }
    destruct (String.eqb _ KeyAnnotationTypes); [destruct (read_annotations _ _) as [w| |] eqn:E; cbn [bind] in H; try discriminate H; injection H as <-; apply annotations_read in E; unfold cl; lib_fields; lia|].
    destruct (String.eqb _ KeyResourceTypes); [destruct (read_untyped _ _) as [w| |] eqn:E; cbn [bind] in H; try discriminate H; injection H as <-; apply untyped_read in E; apply mw_step in E; unfold cl; lib_fields; lia|].
    destruct (_ || _)%bool; [destruct (read_types _ _) as [w| |] eqn:E; cbn [bind] in H; try discriminate H; injection H as <-; apply (types_read v (l_types l) w (below_all v)) in E; apply mw_step in E; unfold cl; lib_fields; lia|].
    destruct (String.eqb _ KeyTraits); [destruct (read_untyped _ _) as [w| |] eqn:E; cbn [bind] in H; try discriminate H; injection H as <-; apply untyped_read in E; apply mw_step in E; unfold cl; lib_fields; lia|].
    destruct (String.eqb _ KeyUses); [destruct (read_strings _ _) as [w| |] eqn:E; cbn [bind] in H; try discriminate H; injection H as <-; apply strings_read in E; apply mw_step in E; unfold cl; lib_fields; lia|].
    destruct (String.eqb _ KeyUsage); [destruct (run_assign _) as [w| |]; cbn [bind] in H; try discriminate H; injection H as <-; unfold cl; lib_fields; pose proof (str_opt_le w); lia|].
    destruct (String.eqb _ KeySecuritySchemes); [destruct (read_untyped _ _) as [w| |] eqn:E; cbn [bind] in H; try discriminate H; injection H as <-; apply untyped_read in E; apply mw_step in E; unfold cl; lib_fields; lia|].
    cbv zeta in H. assert (O : forall l1, bind (to_scalar k) (fun s => Ok (l_set_extra (kput s (GNode v) (l_extra l)) l)) = Ok l1 -> cl l1 <= cl l + 3 * nodes v + 1).
    { intros l1 E. destruct (to_scalar k) as [s| |]; cbn [bind] in E; try discriminate E. injection E as <-. apply X. }
    destruct (is_string k); [|exact (O l' H)]. destruct (value k) as [|c s]; [discriminate H|]. destruct (Ascii.eqb c "("); [|exact (O l' H)].
    destruct (read_annotation v) as [m| |] eqn:E; cbn [bind] in H; try discriminate H. injection H as <-. apply annotation_read in E. unfold cl. lib_fields. pose proof (aw_mput unw (String c s) m (l_annotations l)). unfold unw in *. lia.
  Qed.
  Lemma lib_saved n l n' : lib_unmarshal n new_library = Ok l -> lib_marshal l = Ok n' -> nodes n' <= 3 * nodes n.
  Proof.
    unfold lib_unmarshal, map_fold. destruct n as [t s|t es|t es]; try discriminate. intros H M. pose proof (lib_size l) as B. rewrite M in B. cbn [rw] in B. pose proof (fold_size lib_assign cl es new_library l H) as Z. rewrite nodes_map. change (cl new_library) with 0 in Z. assert (cl l + 2 * List.length es <= 0 + 3 * total pair_nodes es); [|lia]. apply Z. intros s e s' _. apply lib_assign_size.
  Qed.
  Lemma type_saved n d n' : hat n = Ok d -> to_yaml d = Ok n' -> nodes n' <= 3 * nodes n.
  Proof. intros H M. apply hat_size in H. unfold tw in H. rewrite M in H. exact H. Qed.
End Sizes.
