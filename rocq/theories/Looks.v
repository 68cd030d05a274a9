(** Which entries the methods of an ordered map look at (v0/pkg/raml/AnyMap.go:159-253 and its 20 siblings).

    The definitions are those of OMap.v, with the positions of the slice [ordered] that are read, in the order of reading.  A read of the
    Key and of the Val of the same entry in one statement counts once.  Writes are not counted, nor is what append and the Go map [index]
    do inside (growing the slice, hashing). *)
From Verif Require Import Base OMap OMapSpec OMapProofs MapFacts Keys.

Definition traced (A : Type) : Type := (list nat * res A)%type.
(** a computation that looks at nothing *)
Definition quiet {A} (r : res A) : traced A := ([], r).
Definition andthen {A B} (x : traced A) (f : A -> traced B) : traced B :=
  match snd x with
  | Ok a => (fst x ++ fst (f a), snd (f a))
  | Err => (fst x, Err)
  | Panic => (fst x, Panic)
  end.

Section Looks.
  Variables K V : Type.
  Variable keq : K -> K -> bool.
  Variable hashable : K -> bool.

  (** AnyMap.go:223-227, the loop of IndexOf: [i.ordered[j].Key == k] *)
  Fixpoint scan_t (j : nat) (k : K) (l : list (K * V)) : list nat * option nat :=
    match l with
    | [] => ([], None)
    | (k', _) :: t => if keq k' k then ([j], Some j) else (j :: fst (scan_t (S j) k t), snd (scan_t (S j) k t))
    end.

  (** AnyMap.go:219-229 IndexOf *)
  Definition index_of_t (k : K) (m : omap K V) : traced (option nat) :=
    andthen (quiet (gomap_get keq hashable k (index m))) (fun found =>
    match found with
    | None => quiet (Ok None)
    | Some _ => (fst (scan_t 0 k (ordered m)), match snd (scan_t 0 k (ordered m)) with Some j => Ok (Some j) | None => Panic end)
    end).

  (** AnyMap.go:231-240 Delete: [append(i.ordered[:pos], i.ordered[pos+1:]...)] reads the entries after [pos]. *)
  Definition delete_t (k : K) (m : omap K V) : traced (omap K V) :=
    andthen (index_of_t k m) (fun pos =>
    match pos with
    | None => quiet (Ok m)
    | Some j =>
      (seq (S j) (len m - S j),
       do ix <- gomap_delete keq hashable k (index m);
       Ok (mkOMap (firstn j (ordered m) ++ skipn (S j) (ordered m)) ix (outOrder m)))
    end).

  (** AnyMap.go:159-164 Put, 166-172 PutIfNotNil *)
  Definition put_t (k : K) (v : V) (m : omap K V) : traced (omap K V) :=
    andthen (delete_t k m) (fun m1 => quiet (
      do ix <- gomap_set keq hashable k v (index m1);
      Ok (mkOMap (ordered m1 ++ [(k, v)]) ix (outOrder m1)))).

  Definition put_if_not_nil_t (k : K) (v : option V) (m : omap K V) : traced (omap K V) :=
    match v with
    | None => quiet (Ok m)
    | Some x => put_t k x m
    end.

  (** AnyMap.go:182-191 ReplaceIfExists; [i.ordered[pos].Val = v] is a write. *)
  Definition replace_if_exists_t (k : K) (v : V) (m : omap K V) : traced (omap K V) :=
    andthen (index_of_t k m) (fun pos => quiet (
    match pos with
    | None => Ok m
    | Some j =>
      do ix <- gomap_set keq hashable k v (index m);
      Ok (mkOMap (set_val j v (ordered m)) ix (outOrder m))
    end)).

  (** AnyMap.go:174-180 ReplaceOrPut; Has asks [index]. *)
  Definition replace_or_put_t (k : K) (v : V) (m : omap K V) : traced (omap K V) :=
    andthen (quiet (has keq hashable k m)) (fun b => if b then replace_if_exists_t k v m else put_t k v m).

  (** AnyMap.go:206-208 At: an index out of range panics before anything is read. *)
  Definition at_t (j : Z) (m : omap K V) : traced (K * V) :=
    (match at_ j m with Ok _ => [Z.to_nat j] | _ => [] end, at_ j m).

  (** AnyMap.go:242-248 ForEach with a callback that does not touch the map *)
  Fixpoint for_each_t (todo j : nat) (s : list (K * V) * omap K V) : traced (list (K * V) * omap K V) :=
    match todo with
    | O => quiet (Ok s)
    | S todo' =>
      match nth_error (ordered (snd s)) j with
      | None => quiet Panic
      | Some (k, v) => andthen ([j], collect k v s) (fun s' => for_each_t todo' (S j) s')
      end
    end.

  Definition upd_t (r : traced (omap K V)) : traced (omap K V * obs K V) := andthen r (fun m => quiet (Ok (m, RNone))).
  Definition ask_t {A} (m : omap K V) (f : A -> obs K V) (r : traced A) : traced (omap K V * obs K V) :=
    andthen r (fun a => quiet (Ok (m, f a))).

  (** A call of a method.  Get, GetOpt and Has ask [index]; Len and SerializeOrdered ask the fields. *)
  Definition step_t (m : omap K V) (o : op K V) : traced (omap K V * obs K V) :=
    match o with
    | OPut k v => upd_t (put_t k v m)
    | OPutIfNotNil k v => upd_t (put_if_not_nil_t k v m)
    | OReplaceOrPut k v => upd_t (replace_or_put_t k v m)
    | OReplaceIfExists k v => upd_t (replace_if_exists_t k v m)
    | ODelete k => upd_t (delete_t k m)
    | OSerializeOrdered b => quiet (Ok (serialize_ordered b m, RNone))
    | OGet k | OGetOpt k => ask_t m RVal (quiet (get keq hashable k m))
    | OHas k => ask_t m RBool (quiet (has keq hashable k m))
    | OLen => quiet (Ok (m, RInt (Z.of_nat (len m))))
    | OAt j => ask_t m REntry (at_t j m)
    | OIndexOf k => ask_t m (fun p => RInt (match p with Some j => Z.of_nat j | None => -1 end)) (index_of_t k m)
    | OForEach => andthen (for_each_t (len m) 0 ([], m)) (fun s => quiet (Ok (snd s, REntries (fst s))))
    end.

  (** A history: the positions looked at by each of its calls, up to a panic. *)
  Fixpoint looks (m : omap K V) (ops : list (op K V)) : list (list nat) :=
    match ops with
    | [] => []
    | o :: t =>
      match snd (step_t m o) with
      | Ok s => fst (step_t m o) :: looks (fst s) t
      | _ => [fst (step_t m o)]
      end
    end.

  (** ** The specification: what a call looks at in a map with the entries [l] *)
  Definition up_to (k : K) (l : list (K * V)) : list nat := if shas keq k l then seq 0 (S (Z.to_nat (spos keq k l))) else [].
  Definition all_if (k : K) (l : list (K * V)) : list nat := if shas keq k l then seq 0 (List.length l) else [].
  Definition looked_at (l : list (K * V)) (o : op K V) : list nat :=
    match o with
    | OPut k _ | OPutIfNotNil k (Some _) | ODelete k => all_if k l
    | OReplaceOrPut k _ | OReplaceIfExists k _ | OIndexOf k => up_to k l
    | OAt j => match sat j l with Some _ => [Z.to_nat j] | None => [] end
    | OForEach => seq 0 (List.length l)
    | _ => []
    end.

  (** ** Facts *)

  Lemma andthen_snd {A B} (x : traced A) (f : A -> traced B) : snd (andthen x f) = (do a <- snd x; snd (f a)).
  Proof. destruct x as [l [a| |]]; reflexivity. Qed.

  Lemma scan_same j k l : snd (scan_t j k l) = scan keq j k l.
  Proof. revert j. induction l as [|[k' v'] l IH]; intros j; cbn; [reflexivity|]. destruct (keq k' k); [reflexivity|apply IH]. Qed.

  Lemma index_of_same k m : snd (index_of_t k m) = index_of keq hashable k m.
  Proof.
    unfold index_of_t, index_of. rewrite andthen_snd. cbn [quiet snd]. destruct (gomap_get keq hashable k (index m)) as [[v|]| |]; try reflexivity.
    cbn [bind snd]. rewrite scan_same. reflexivity.
  Qed.

  Lemma delete_same k m : snd (delete_t k m) = delete keq hashable k m.
  Proof.
    unfold delete_t, delete. rewrite andthen_snd, index_of_same. destruct (index_of keq hashable k m) as [[j|]| |]; reflexivity.
  Qed.

  Lemma put_same k v m : snd (put_t k v m) = put keq hashable k v m.
  Proof. unfold put_t, put. rewrite andthen_snd, delete_same. reflexivity. Qed.

  Lemma replace_same k v m : snd (replace_if_exists_t k v m) = replace_if_exists keq hashable k v m.
  Proof. unfold replace_if_exists_t, replace_if_exists. rewrite andthen_snd, index_of_same. reflexivity. Qed.

  Lemma for_each_same todo j s : snd (for_each_t todo j s) = for_each_loop todo j collect s.
  Proof.
    revert j s. induction todo as [|n IH]; intros j s; cbn; [reflexivity|]. destruct (nth_error (ordered (snd s)) j) as [[k v]|]; [|reflexivity].
    cbn. apply IH.
  Qed.

  (** With the positions left out, the definitions are those of OMap.v. *)
  Lemma step_same m o : snd (step_t m o) = step keq hashable m o.
  Proof.
    destruct o as [k v|k [v|]|k v|k v|k|b|k|k|k| |j|k|]; cbn [step_t step put_if_not_nil_t put_if_not_nil]; unfold upd_t, upd, ask_t, ask;
      rewrite ?andthen_snd, ?put_same, ?replace_same, ?delete_same, ?index_of_same; try reflexivity.
    - unfold replace_or_put_t, replace_or_put. rewrite andthen_snd. cbn [quiet snd].
      destruct (has keq hashable k m) as [[|]| |]; cbn [bind]; rewrite ?replace_same, ?put_same; reflexivity.
    - rewrite for_each_same. reflexivity.
  Qed.

  Lemma scan_prefix j k l : exists n, fst (scan_t j k l) = seq j n /\ (n <= List.length l)%nat /\
    (forall i, snd (scan_t j k l) = Some i -> (j <= i)%nat /\ n = S (i - j)).
  Proof.
    revert j. induction l as [|[k' v'] l IH]; intros j; cbn; [exists 0; repeat split; [lia|discriminate..]|].
    destruct (keq k' k).
    - exists 1. cbn. split; [reflexivity|]. split; [lia|]. intros i H. injection H as <-. lia.
    - destruct (IH (S j)) as (n & A & B & C). exists (S n). cbn [fst snd seq]. rewrite A. split; [reflexivity|]. split; [lia|].
      intros i H. specialize (C i H). lia.
  Qed.

  Lemma index_prefix k m : exists n, fst (index_of_t k m) = seq 0 n /\ (n <= len m)%nat /\
    (forall i, snd (index_of_t k m) = Ok (Some i) -> n = S i) /\ (snd (index_of_t k m) = Ok None -> n = 0).
  Proof.
    unfold index_of_t, andthen. cbn [quiet fst snd]. destruct (gomap_get keq hashable k (index m)) as [[v|]| |]; cbn [fst snd app];
      [|exists 0; repeat split; [lia|discriminate..]|exists 0; repeat split; [lia|discriminate..]|exists 0; repeat split; [lia|discriminate..]].
    destruct (scan_prefix 0 k (ordered m)) as (n & A & B & C). exists n. split; [exact A|]. split; [exact B|].
    destruct (snd (scan_t 0 k (ordered m))) as [i|]; split; try discriminate.
    intros i' H. injection H as <-. destruct (C i eq_refl) as [_ D]. lia.
  Qed.

  Lemma andthen_quiet {A B} (x : traced A) (f : A -> res B) : fst (andthen x (fun a => quiet (f a))) = fst x.
  Proof. destruct x as [l [a| |]]; cbn; rewrite ?app_nil_r; reflexivity. Qed.

  Lemma delete_prefix k m : exists n, fst (delete_t k m) = seq 0 n /\ (n <= len m)%nat /\
    (forall i, index_of keq hashable k m = Ok (Some i) -> n = len m) /\ (index_of keq hashable k m = Ok None -> n = 0).
  Proof.
    unfold delete_t, andthen. rewrite <- index_of_same. destruct (index_prefix k m) as (n & A & B & C & D). rewrite A.
    destruct (snd (index_of_t k m)) as [[i|]| |]; cbn [fst quiet].
    - specialize (C i eq_refl). subst n. exists (len m). repeat split; auto; [|discriminate].
      rewrite <- seq_app. f_equal. lia.
    - specialize (D eq_refl). subst n. exists 0. repeat split; [lia|discriminate].
    - exists n. repeat split; auto; discriminate.
    - exists n. repeat split; auto; discriminate.
  Qed.

  Lemma put_looks k v m : fst (put_t k v m) = fst (delete_t k m).
  Proof. apply andthen_quiet. Qed.
  Lemma replace_looks k v m : fst (replace_if_exists_t k v m) = fst (index_of_t k m).
  Proof. apply andthen_quiet. Qed.

  Lemma for_each_prefix todo j s : (j + todo <= List.length (ordered (snd s)))%nat -> fst (for_each_t todo j s) = seq j todo.
  Proof.
    revert j s. induction todo as [|n IH]; intros j s L; cbn; [reflexivity|].
    destruct (nth_error (ordered (snd s)) j) as [[k v]|] eqn:E; [|apply nth_error_None in E; lia].
    unfold andthen. cbn. f_equal. apply IH. cbn. lia.
  Qed.

  Lemma step_prefix m o : exists j n, fst (step_t m o) = seq j n /\ (j + n <= len m)%nat.
  Proof.
    destruct (match o with OPut k _ | OPutIfNotNil k _ | ODelete k | OReplaceOrPut k _ | OReplaceIfExists k _ | OIndexOf k => Some k | _ => None end)
      as [k|] eqn:Ek.
    - destruct (index_prefix k m) as (n1 & A1 & B1 & _). destruct (delete_prefix k m) as (n2 & A2 & B2 & _).
      exists 0. destruct o as [k' v|k' [v|]|k' v|k' v|k'|b|k'|k'|k'| |j|k'|]; try discriminate; injection Ek as ->;
        cbn [step_t put_if_not_nil_t]; unfold upd_t, ask_t; rewrite ?andthen_quiet, ?put_looks, ?replace_looks;
        try (exists n2; split; [exact A2|exact B2]); try (exists n1; split; [exact A1|exact B1]).
      + exists 0. split; [reflexivity|lia].
      + unfold replace_or_put_t, andthen. cbn [quiet fst snd app]. destruct (has keq hashable k m) as [[|]| |]; cbn [fst app];
          rewrite ?put_looks, ?replace_looks; try (exists n2; split; [exact A2|exact B2]); try (exists n1; split; [exact A1|exact B1]);
          exists 0; (split; [reflexivity|lia]).
    - destruct o as [k' v|k' [v|]|k' v|k' v|k'|b|k'|k'|k'| |j|k'|]; try discriminate; cbn [step_t]; unfold ask_t; rewrite ?andthen_quiet;
        cbn [quiet fst]; try (exists 0, 0; split; [reflexivity|lia]).
      + unfold at_t, at_. cbn [fst]. destruct (j <? 0)%Z; [exists 0, 0; split; [reflexivity|lia]|].
        destruct (nth_error (ordered m) (Z.to_nat j)) eqn:E; [|exists 0, 0; split; [reflexivity|lia]].
        exists (Z.to_nat j), 1. split; [reflexivity|]. assert (Z.to_nat j < List.length (ordered m))%nat by (apply nth_error_Some; congruence).
        unfold len. lia.
      + exists 0, (len m). rewrite for_each_prefix by (cbn; unfold len; lia). split; [reflexivity|lia].
  Qed.

  Lemma step_once m o : NoDup (fst (step_t m o)) /\ (forall i, In i (fst (step_t m o)) -> i < len m)%nat.
  Proof.
    destruct (step_prefix m o) as (j & n & -> & L). split; [apply seq_NoDup|]. intros i I. apply in_seq in I. lia.
  Qed.

  Lemma cut_length (l : list (K * V)) : forall i, (i < List.length l)%nat -> List.length l = S (List.length (firstn i l ++ skipn (S i) l)).
  Proof. intros i L. rewrite app_length, firstn_length, skipn_length. lia. Qed.

  (** A call either adds one entry and looks at none, or adds none and looks at no more than there are. *)
  Lemma delete_len k (m m' : omap K V) : delete keq hashable k m = Ok m' ->
    (index_of keq hashable k m = Ok None /\ m' = m) \/ (exists i, index_of keq hashable k m = Ok (Some i) /\ len m = S (len m')).
  Proof.
    unfold delete. destruct (index_of keq hashable k m) as [[i|]| |] eqn:E; cbn [bind]; try discriminate.
    - destruct (gomap_delete keq hashable k (index m)) as [ix| |]; cbn [bind]; try discriminate. intros H. injection H as <-. right. exists i.
      split; [reflexivity|].
      unfold index_of in E. destruct (gomap_get keq hashable k (index m)) as [[v|]| |]; cbn [bind] in E; try discriminate.
      rewrite (scan_spos K V keq) in E. destruct (Z.ltb_spec (spos keq k (ordered m)) 0) as [L|L]; [discriminate|]. injection E as E.
      destruct (spos_nth K V keq k (ordered m) (Z.to_nat (spos keq k (ordered m))) (eq_sym (Z2Nat.id _ L))) as (e & N & _).
      assert (Z.to_nat (spos keq k (ordered m)) < List.length (ordered m))%nat by (apply nth_error_Some; congruence). subst i. apply (cut_length (ordered m)). lia.
    - intros H. injection H as <-. auto.
  Qed.

  Lemma put_len k v (m m' : omap K V) : put keq hashable k v m = Ok m' ->
    (fst (put_t k v m) = [] /\ len m' = S (len m)) \/ len m' = len m.
  Proof.
    unfold put. rewrite put_looks. destruct (delete keq hashable k m) as [m1| |] eqn:D; cbn [bind]; try discriminate.
    destruct (gomap_set keq hashable k v (index m1)) as [ix| |]; cbn [bind]; try discriminate. intros H. injection H as <-.
    destruct (delete_prefix k m) as (n & P & _ & _ & Q).
    destruct (delete_len k m m1 D) as [[E ->]|(i & E & L)].
    - left. rewrite P, (Q E). split; [reflexivity|]. unfold len. cbn. rewrite app_length. cbn. lia.
    - right. rewrite L. unfold len. cbn. rewrite app_length. cbn. lia.
  Qed.

  Lemma set_val_length j (v : V) (l : list (K * V)) : List.length (set_val j v l) = List.length l.
  Proof. revert j. induction l as [|[a b] l IH]; intros [|j]; cbn; auto. Qed.

  Lemma replace_len k v (m m' : omap K V) : replace_if_exists keq hashable k v m = Ok m' -> len m' = len m.
  Proof.
    unfold replace_if_exists. destruct (index_of keq hashable k m) as [[i|]| |]; cbn [bind]; try discriminate.
    - destruct (gomap_set keq hashable k v (index m)) as [ix| |]; cbn [bind]; try discriminate. intros H. injection H as <-.
      unfold len. cbn. apply set_val_length.
    - intros H. injection H as <-. reflexivity.
  Qed.

  Lemma step_len (m : omap K V) o m' r : step keq hashable m o = Ok (m', r) ->
    (fst (step_t m o) = [] /\ len m' = S (len m)) \/ (len m' <= len m)%nat.
  Proof.
    destruct o as [k v|k [v|]|k v|k v|k|b|k|k|k| |j|k|]; cbn [step step_t put_if_not_nil put_if_not_nil_t]; unfold upd, upd_t, ask, ask_t;
      rewrite ?andthen_quiet; intros H.
    - destruct (put keq hashable k v m) as [x| |] eqn:E; cbn in H; try discriminate. injection H as <- <-.
      destruct (put_len k v m x E) as [A|A]; [auto|right; lia].
    - destruct (put keq hashable k v m) as [x| |] eqn:E; cbn in H; try discriminate. injection H as <- <-.
      destruct (put_len k v m x E) as [A|A]; [auto|right; lia].
    - cbn in H. injection H as <- <-. right. lia.
    - unfold replace_or_put, replace_or_put_t in *. destruct (has keq hashable k m) as [[|]| |]; cbn in H; try discriminate.
      + destruct (replace_if_exists keq hashable k v m) as [x| |] eqn:E; cbn in H; try discriminate. injection H as <- <-.
        apply replace_len in E. right. lia.
      + destruct (put keq hashable k v m) as [x| |] eqn:E; cbn in H; try discriminate. injection H as <- <-.
        destruct (put_len k v m x E) as [A|A]; [auto|right; lia].
    - destruct (replace_if_exists keq hashable k v m) as [x| |] eqn:E; cbn in H; try discriminate. injection H as <- <-.
      apply replace_len in E. right. lia.
    - destruct (delete keq hashable k m) as [x| |] eqn:E; cbn in H; try discriminate. injection H as <- <-.
      destruct (delete_len k m x E) as [[_ ->]|(i & _ & L)]; right; lia.
    - injection H as <- <-. right. unfold len, serialize_ordered. cbn. lia.
    - destruct (get keq hashable k m); cbn in H; try discriminate. injection H as <- <-. auto.
    - destruct (get keq hashable k m); cbn in H; try discriminate. injection H as <- <-. auto.
    - destruct (has keq hashable k m); cbn in H; try discriminate. injection H as <- <-. auto.
    - injection H as <- <-. auto.
    - destruct (at_ j m); cbn in H; try discriminate. injection H as <- <-. auto.
    - destruct (index_of keq hashable k m); cbn in H; try discriminate. injection H as <- <-. auto.
    - rewrite for_each_collect in H. cbn in H. injection H as <- <-. auto.
  Qed.

  (** How many looks a history takes. *)
  Definition total (ls : list (list nat)) : nat := list_sum (map (@List.length nat) ls).

  Lemma step_looks_le m o : (List.length (fst (step_t m o)) <= len m)%nat.
  Proof. destruct (step_prefix m o) as (j & n & -> & L). rewrite seq_length. lia. Qed.

  Lemma looks_bound ops : forall m : omap K V, exists p, (p <= List.length ops /\ total (looks m ops) <= (len m + p) * (List.length ops - p))%nat.
  Proof.
    induction ops as [|o ops IH]; intros m; [exists 0; cbn; lia|]. cbn [looks List.length].
    pose proof (step_looks_le m o) as L0. pose proof (step_same m o) as S0.
    destruct (snd (step_t m o)) as [[m' r]| |].
    - symmetry in S0. destruct (IH m') as (p & P1 & P2). cbn [fst]. unfold total in *. cbn [map list_sum fold_right].
      change (fold_right Nat.add 0 (map (List.length (A:=nat)) (looks m' ops))) with (list_sum (map (List.length (A:=nat)) (looks m' ops))).
      destruct (step_len m o m' r S0) as [[A B]|B].
      + exists (S p). rewrite A. cbn [List.length]. split; [lia|]. rewrite B in P2. cbn [Nat.sub]. nia.
      + exists p. split; [lia|]. replace (S (List.length ops) - p)%nat with (S (List.length ops - p)) by lia. nia.
    - exists 0. unfold total. cbn. split; [lia|]. nia.
    - exists 0. unfold total. cbn. split; [lia|]. nia.
  Qed.

  Lemma looks_quarter ops : (4 * total (looks new_map ops) <= List.length ops * List.length ops)%nat.
  Proof.
    destruct (looks_bound ops new_map) as (p & A & B). cbn [len ordered new_map List.length Nat.add] in B.
    assert (4 * (p * (List.length ops - p)) <= List.length ops * List.length ops)%nat; [|cbn in B; lia].
    generalize dependent (List.length ops). intros n A B. assert (exists q, n = p + q)%nat as [q ->] by (exists (n - p)%nat; lia).
    replace (p + q - p)%nat with q by lia.
    destruct (Nat.le_ge_cases p q) as [C|C].
    - assert (exists d, q = p + d)%nat as [d ->] by (exists (q - p)%nat; lia). nia.
    - assert (exists d, p = q + d)%nat as [d ->] by (exists (p - q)%nat; lia). nia.
  Qed.

  (** ** Exactly which entries *)

  Hypothesis keq_sym : forall a b, keq a b = keq b a.
  Hypothesis keq_trans : forall a b c, keq a b = true -> keq b c = true -> keq a c = true.

  Lemma index_exact k (m : omap K V) : Inv keq hashable m -> good keq hashable k -> fst (index_of_t k m) = up_to k (ordered m).
  Proof.
    intros I G. destruct (index_prefix k m) as (n & A & _ & B & C). rewrite A. rewrite index_of_same in B, C.
    rewrite (index_of_ok K V keq hashable k m I G) in B, C. unfold up_to. rewrite (shas_sget K V keq).
    pose proof (spos_none K V keq k (ordered m)) as N. pose proof (spos_ge K V keq k (ordered m)) as P.
    destruct (Z.ltb_spec (spos keq k (ordered m)) 0) as [L|L].
    - rewrite (C eq_refl). assert (E : spos keq k (ordered m) = (-1)%Z) by lia. apply N in E. rewrite E. reflexivity.
    - rewrite (B _ eq_refl). destruct (sget keq k (ordered m)); [reflexivity|]. destruct N as [N _]. specialize (N eq_refl). lia.
  Qed.

  Lemma delete_exact k (m : omap K V) : Inv keq hashable m -> good keq hashable k -> fst (delete_t k m) = all_if k (ordered m).
  Proof.
    intros I G. destruct (delete_prefix k m) as (n & A & _ & B & C). rewrite A.
    rewrite (index_of_ok K V keq hashable k m I G) in B, C. unfold all_if. rewrite (shas_sget K V keq).
    pose proof (spos_none K V keq k (ordered m)) as N. pose proof (spos_ge K V keq k (ordered m)) as P.
    destruct (Z.ltb_spec (spos keq k (ordered m)) 0) as [L|L].
    - rewrite (C eq_refl). assert (E : spos keq k (ordered m) = (-1)%Z) by lia. apply N in E. rewrite E. reflexivity.
    - rewrite (B _ eq_refl). destruct (sget keq k (ordered m)); [reflexivity|]. destruct N as [N _]. specialize (N eq_refl). lia.
  Qed.

  Lemma step_exact (m : omap K V) o : Inv keq hashable m -> keys_good keq hashable o ->
    fst (step_t m o) = looked_at (ordered m) o.
  Proof.
    unfold keys_good. intros I Hk. destruct o as [k v|k [v|]|k v|k v|k|b|k|k|k| |j|k|]; cbn [op_keys] in Hk;
      try (inversion Hk as [|? ? Hg _]; subst); cbn [step_t put_if_not_nil_t looked_at]; unfold upd_t, ask_t; rewrite ?andthen_quiet;
      rewrite ?put_looks, ?replace_looks; try (apply delete_exact; assumption); try (apply index_exact; assumption); try reflexivity.
    - unfold replace_or_put_t, andthen. cbn [quiet snd fst app]. rewrite (has_ok K V keq hashable k m I Hg). cbn [app].
      destruct (shas keq k (ordered m)) eqn:E; rewrite ?replace_looks, ?put_looks; [apply index_exact; assumption|].
      cbn [fst]. rewrite ?put_looks, delete_exact by assumption. unfold all_if, up_to. rewrite E. reflexivity.
    - unfold at_t, at_, sat. cbn [fst]. destruct (j <? 0)%Z; [reflexivity|]. destruct (nth_error (ordered m) (Z.to_nat j)); reflexivity.
    - rewrite for_each_prefix by (cbn; unfold len; lia). reflexivity.
  Qed.
End Looks.
