(** The ordered maps again, one level lower: Go slices with shared backing arrays and Go maps held by
    reference, so that the struct copy stored by PutIfNotNil (gomp.Deref of a pointer to a map,
    v0/pkg/raml/AnyMap.go:166-172) and the original share storage.

    String keys only (the 20 string-keyed maps). *)
From Verif Require Import Base OMap OMapSpec OMapProofs MapFacts.

Section Slice.
  Variable V : Type.
  (** [None]: never written *)
  Notation cell := (option (string * V)) (only parsing).

  (** Memory: backing arrays (their length is the capacity) and Go maps, addressed by position. *)
  Record mem : Type := mkMem { arrs : list (list cell); idxs : list (list (string * V)) }.

  (** The struct implXMap (AnyMap.go:108-112): slice header (array, length), map reference, flag. *)
  Record handle : Type := mkH { arr : nat; hlen : nat; ix : nat; hout : bool }.

  (** How [append] sizes a new array; the Go specification leaves it open. *)
  Variable grow : nat -> nat.

  Fixpoint set_nth {A} (n : nat) (x : A) (l : list A) : list A :=
    match l, n with
    | [], _ => []
    | _ :: t, O => x :: t
    | y :: t, S n' => y :: set_nth n' x t
    end.

  Definition array (h : mem) (s : handle) : list cell := nth (arr s) (arrs h) [].
  Definition cells (h : mem) (s : handle) : list cell := firstn (hlen s) (array h s).
  Definition hindex (h : mem) (s : handle) : list (string * V) := nth (ix s) (idxs h) [].

  (** make([]Entry, 0, size), make(map) *)
  Definition h_new (size : nat) (h : mem) : mem * handle :=
    (mkMem (arrs h ++ [repeat None size]) (idxs h ++ [[]]),
     mkH (List.length (arrs h)) 0 (List.length (idxs h)) true).

  Fixpoint cscan (j : nat) (k : string) (l : list cell) : option nat :=
    match l with
    | [] => None
    | Some (k', _) :: t => if String.eqb k' k then Some j else cscan (S j) k t
    | None :: t => cscan (S j) k t
    end.

  (** AnyMap.go:219-229 *)
  Definition h_index_of (k : string) (h : mem) (s : handle) : res (option nat) :=
    match gomap_find String.eqb k (hindex h s) with
    | None => Ok None
    | Some _ => match cscan 0 k (cells h s) with Some j => Ok (Some j) | None => Panic end
    end.

  (** AnyMap.go:231-240: append(ordered[:pos], ordered[pos+1:]...) moves the tail down in place. *)
  Definition h_delete (k : string) (h : mem) (s : handle) : res (mem * handle) :=
    do pos <- h_index_of k h s;
    match pos with
    | None => Ok (h, s)
    | Some j =>
      let a := array h s in
      let a' := firstn j a ++ skipn (S j) (firstn (hlen s) a) ++ skipn (hlen s - 1) a in
      Ok (mkMem (set_nth (arr s) a' (arrs h))
                (set_nth (ix s) (gomap_rem String.eqb k (hindex h s)) (idxs h)),
          mkH (arr s) (hlen s - 1) (ix s) (hout s))
    end.

  (** append(ordered, e): in place if the array has room, else in a new, larger array *)
  Definition h_append (e : string * V) (h : mem) (s : handle) : mem * handle :=
    if (hlen s <? List.length (array h s))%nat then
      (mkMem (set_nth (arr s) (set_nth (hlen s) (Some e) (array h s)) (arrs h)) (idxs h),
       mkH (arr s) (S (hlen s)) (ix s) (hout s))
    else
      (mkMem (arrs h ++ [cells h s ++ [Some e] ++ repeat None (grow (hlen s))]) (idxs h),
       mkH (List.length (arrs h)) (S (hlen s)) (ix s) (hout s)).

  (** AnyMap.go:159-164 *)
  Definition h_put (k : string) (v : V) (h : mem) (s : handle) : res (mem * handle) :=
    do hs <- h_delete k h s;
    let (h1, s1) := hs in
    let h2 := mkMem (arrs h1) (set_nth (ix s1) (gomap_upd String.eqb k v (hindex h1 s1)) (idxs h1)) in
    Ok (h_append (k, v) h2 s1).

  (** AnyMap.go:182-191 *)
  Definition h_replace (k : string) (v : V) (h : mem) (s : handle) : res (mem * handle) :=
    do pos <- h_index_of k h s;
    match pos with
    | None => Ok (h, s)
    | Some j =>
      Ok (mkMem (set_nth (arr s)
                   (set_nth j (match nth j (array h s) None with
                               | Some (k', _) => Some (k', v) | None => None end) (array h s)) (arrs h))
                (set_nth (ix s) (gomap_upd String.eqb k v (hindex h s)) (idxs h)), s)
    end.

  (** Edits as data. *)
  Inductive edit : Type :=
  | EPut (k : string) (v : V)
  | EReplace (k : string) (v : V)
  | EDelete (k : string).

  Definition h_edit (hs : mem * handle) (e : edit) : res (mem * handle) :=
    match e with
    | EPut k v => h_put k v (fst hs) (snd hs)
    | EReplace k v => h_replace k v (fst hs) (snd hs)
    | EDelete k => h_delete k (fst hs) (snd hs)
    end.

  Definition o_edit (m : omap string V) (e : edit) : res (omap string V) :=
    match e with
    | EPut k v => sm_put k v m
    | EReplace k v => sm_replace_if_exists k v m
    | EDelete k => sm_delete k m
    end.

  (** What ForEach over a struct (the original or a copy) enumerates in a given memory. *)
  Definition h_entries (h : mem) (s : handle) : list cell := cells h s.

  (** ** Facts *)

  Lemma set_nth_length {A} n (x : A) l : List.length (set_nth n x l) = List.length l.
  Proof. revert n. induction l as [|y l IH]; intros [|n]; simpl; auto. Qed.

  Lemma nth_set_same {A} n (x d : A) l : n < List.length l -> nth n (set_nth n x l) d = x.
  Proof. revert n. induction l as [|y l IH]; intros [|n] H; simpl in *; try lia; auto. apply IH; lia. Qed.

  Lemma nth_set_other {A} n n' (x d : A) l : n <> n' -> nth n' (set_nth n x l) d = nth n' l d.
  Proof.
    revert n n'. induction l as [|y l IH]; intros [|n] [|n'] H; simpl; auto; try lia.
  Qed.

  Lemma firstn_set {A} n m (x : A) l : m <= n -> firstn m (set_nth n x l) = firstn m l.
  Proof.
    revert n m. induction l as [|y l IH]; intros [|n] [|m] H; simpl; auto; try lia.
    f_equal. apply IH; lia.
  Qed.

  (** The struct [s] in memory [h] represents the map [m]. *)
  Record sim (h : mem) (s : handle) (m : omap string V) : Prop := {
    sim_arr : arr s < List.length (arrs h);
    sim_ix : ix s < List.length (idxs h);
    sim_len : hlen s = List.length (ordered m);
    sim_cap : hlen s <= List.length (array h s);
    sim_cells : cells h s = map Some (ordered m);
    sim_index : hindex h s = index m;
    sim_out : hout s = outOrder m
  }.

  Lemma cscan_scan j k (l : list (string * V)) : cscan j k (map Some l) = scan String.eqb j k l.
  Proof.
    revert j. induction l as [|[k' v] l IH]; intros j; simpl; [reflexivity|].
    destruct (String.eqb k' k); auto.
  Qed.

  Lemma sim_index_of k h s m : sim h s m -> h_index_of k h s = sm_index_of k m.
  Proof.
    intros H. unfold h_index_of, index_of, gomap_get. rewrite (sim_index _ _ _ H), (sim_cells _ _ _ H).
    unfold any_hash. simpl. destruct (gomap_find String.eqb k (index m)); [|reflexivity].
    rewrite cscan_scan. reflexivity.
  Qed.

  Lemma scan_range j k (l : list (string * V)) p : scan String.eqb j k l = Some p -> j <= p < j + List.length l.
  Proof.
    revert j. induction l as [|[k' v] l IH]; intros j; simpl; [discriminate|].
    destruct (String.eqb k' k).
    - intros E; injection E as ->. lia.
    - intros E. apply IH in E. lia.
  Qed.

  Lemma sim_delete k h s m : sim h s m ->
    match sm_delete k m with
    | Ok m' => exists h' s', h_delete k h s = Ok (h', s') /\ sim h' s' m'
    | Err => False
    | Panic => h_delete k h s = Panic
    end.
  Proof.
    intros H. unfold h_delete, delete. rewrite (sim_index_of k h s m H).
    destruct (sm_index_of k m) as [[j|]| |] eqn:E; cbn [bind].
    - eexists _, _. split; [reflexivity|].
      assert (j < List.length (ordered m)) as Hj.
      { unfold index_of, gomap_get, any_hash in E. simpl in E.
        destruct (gomap_find String.eqb k (index m)); [|discriminate].
        destruct (scan String.eqb 0 k (ordered m)) eqn:E2; [|discriminate].
        injection E as ->. apply scan_range in E2. lia. }
      pose proof (sim_len _ _ _ H) as Hl. pose proof (sim_cap _ _ _ H) as Hc.
      pose proof (sim_cells _ _ _ H) as Hcs. unfold cells in Hcs.
      assert (firstn j (array h s) = map Some (firstn j (ordered m))) as H1.
      { rewrite <- firstn_map, <- Hcs, firstn_firstn. f_equal. lia. }
      assert (skipn (S j) (firstn (hlen s) (array h s)) = map Some (skipn (S j) (ordered m))) as H2.
      { rewrite Hcs, skipn_map. reflexivity. }
      set (a' := firstn j (array h s) ++ skipn (S j) (firstn (hlen s) (array h s))
                 ++ skipn (hlen s - 1) (array h s)).
      assert (nth (arr s) (set_nth (arr s) a' (arrs h)) [] = a') as Ha
          by (apply nth_set_same; apply (sim_arr _ _ _ H)).
      assert (firstn (hlen s - 1) a' = map Some (firstn j (ordered m) ++ skipn (S j) (ordered m))) as H3.
      { unfold a'. rewrite H1, H2, app_assoc, <- map_app.
        set (l := firstn j (ordered m) ++ skipn (S j) (ordered m)).
        assert (List.length l = hlen s - 1) as HL.
        { unfold l. rewrite app_length, firstn_length, skipn_length. lia. }
        rewrite firstn_app. rewrite (firstn_all2 (map Some l)) by (rewrite map_length; lia).
        rewrite map_length, HL, Nat.sub_diag, firstn_O, app_nil_r. reflexivity. }
      split; cbn [arr hlen ix hout arrs idxs ordered index outOrder].
      + rewrite set_nth_length. apply (sim_arr _ _ _ H).
      + rewrite set_nth_length. apply (sim_ix _ _ _ H).
      + rewrite app_length, firstn_length, skipn_length. lia.
      + unfold array; simpl. rewrite Ha. unfold a'. rewrite !app_length, !skipn_length, !firstn_length. lia.
      + unfold cells, array; simpl. rewrite Ha. exact H3.
      + unfold hindex; simpl. rewrite nth_set_same by apply (sim_ix _ _ _ H).
        f_equal. apply (sim_index _ _ _ H).
      + apply (sim_out _ _ _ H).
    - exists h, s. auto.
    - unfold index_of, gomap_get in E. simpl in E.
      destruct (gomap_find String.eqb k (index m)); [|discriminate].
      destruct (scan String.eqb 0 k (ordered m)); discriminate.
    - reflexivity.
  Qed.

  Lemma firstn_S_set {A} n (x : A) l : n < List.length l ->
    firstn (S n) (set_nth n x l) = firstn n l ++ [x].
  Proof.
    revert n. induction l as [|y l IH]; intros [|n] H; simpl in *; try lia; auto.
    f_equal. apply IH. lia.
  Qed.

  Lemma sim_append k v h s m h1 ixs :
    sim h s m -> h1 = mkMem (arrs h) (set_nth (ix s) ixs (idxs h)) ->
    let (h', s') := h_append (k, v) h1 s in
    sim h' s' (mkOMap (ordered m ++ [(k, v)]) ixs (outOrder m)).
  Proof.
    intros H ->. set (h1 := mkMem (arrs h) (set_nth (ix s) ixs (idxs h))).
    assert (array h1 s = array h s) as Ha by reflexivity.
    assert (cells h1 s = cells h s) as Hcc by reflexivity.
    unfold h_append. rewrite Ha, Hcc.
    pose proof (sim_len _ _ _ H) as Hl. pose proof (sim_cap _ _ _ H) as Hc.
    pose proof (sim_cells _ _ _ H) as Hcs.
    destruct (Nat.ltb_spec (hlen s) (List.length (array h s))) as [L|L].
    - assert (nth (arr s) (set_nth (arr s) (set_nth (hlen s) (Some (k, v)) (array h s)) (arrs h)) []
              = set_nth (hlen s) (Some (k, v)) (array h s)) as Hn
          by (apply nth_set_same; apply (sim_arr _ _ _ H)).
      assert (List.length (set_nth (hlen s) (Some (k, v)) (array h s)) = List.length (array h s)) as Hsl
          by apply set_nth_length.
      assert (firstn (S (hlen s)) (set_nth (hlen s) (Some (k, v)) (array h s))
              = cells h s ++ [Some (k, v)]) as Hsf by (apply firstn_S_set; exact L).
      set (a2 := set_nth (hlen s) (Some (k, v)) (array h s)) in *.
      split; cbn [arr hlen ix hout arrs idxs ordered index outOrder h1].
      + rewrite set_nth_length. apply (sim_arr _ _ _ H).
      + unfold h1; simpl; rewrite set_nth_length. apply (sim_ix _ _ _ H).
      + rewrite app_length; simpl. lia.
      + unfold array; cbn [arrs arr]. change (arrs h1) with (arrs h). rewrite Hn. lia.
      + unfold cells, array; cbn [arrs arr hlen]. change (arrs h1) with (arrs h). rewrite Hn, Hsf.
        rewrite Hcs, map_app. reflexivity.
      + unfold hindex; simpl. apply nth_set_same. apply (sim_ix _ _ _ H).
      + apply (sim_out _ _ _ H).
    - assert (List.length (cells h s) = hlen s) as HL.
      { rewrite Hcs, map_length. auto. }
      split; cbn [arr hlen ix hout arrs idxs ordered index outOrder].
      + rewrite app_length; simpl. lia.
      + simpl. rewrite set_nth_length. apply (sim_ix _ _ _ H).
      + rewrite app_length; simpl. lia.
      + unfold array; cbn [arrs arr]. change (arrs h1) with (arrs h). rewrite app_nth2, Nat.sub_diag by lia.
        cbn [nth]. rewrite !app_length, HL. simpl. lia.
      + unfold cells at 1, array; cbn [arrs arr hlen]. change (arrs h1) with (arrs h).
        rewrite app_nth2, Nat.sub_diag by lia. cbn [nth].
        rewrite app_assoc, firstn_app, app_length, HL. cbn [List.length].
        replace (S (hlen s) - (hlen s + 1)) with 0 by lia. rewrite firstn_O, app_nil_r.
        rewrite firstn_all2 by (rewrite app_length, HL; simpl; lia).
        rewrite Hcs, map_app. reflexivity.
      + unfold hindex; simpl. apply nth_set_same. apply (sim_ix _ _ _ H).
      + apply (sim_out _ _ _ H).
  Qed.

  Lemma sim_put k v h s m : sim h s m ->
    match sm_put k v m with
    | Ok m' => exists h' s', h_put k v h s = Ok (h', s') /\ sim h' s' m'
    | Err => False
    | Panic => h_put k v h s = Panic
    end.
  Proof.
    intros H. unfold h_put, put. pose proof (sim_delete k h s m H) as Hd.
    destruct (sm_delete k m) as [m1| |]; simpl.
    - destruct Hd as [h1 [s1 [E Hs]]]. rewrite E. cbn [bind].
      pose proof (sim_append k v h1 s1 m1 _ (gomap_upd String.eqb k v (index m1)) Hs eq_refl) as Ha.
      rewrite (sim_index _ _ _ Hs).
      destruct (h_append (k, v) _ s1) as [h2 s2]. exists h2, s2. auto.
    - exact Hd.
    - rewrite Hd. reflexivity.
  Qed.

  Lemma firstn_set_val j (v : V) (l : list (string * V)) (a : list cell) n :
    firstn n a = map Some l -> n <= List.length a -> j < List.length l -> n = List.length l ->
    firstn n (set_nth j (match nth j a None with Some (k', _) => Some (k', v) | None => None end) a)
    = map Some (set_val j v l).
  Proof.
    revert l a n. induction j as [|j IH]; intros l a n Hf Hn Hj Hl.
    - destruct l as [|[k w] l]; simpl in Hj; [lia|]. destruct a as [|c a]; simpl in *; [lia|].
      destruct n as [|n]; [lia|]. simpl in Hf. injection Hf as -> Hf. simpl. f_equal. exact Hf.
    - destruct l as [|[k w] l]; simpl in Hj; [lia|]. destruct a as [|c a]; simpl in *; [lia|].
      destruct n as [|n]; [lia|]. simpl in Hf. injection Hf as -> Hf. simpl. f_equal.
      apply IH; auto; lia.
  Qed.

  Lemma set_val_length j (v : V) (l : list (string * V)) : List.length (set_val j v l) = List.length l.
  Proof. revert j. induction l as [|[k w] l IH]; intros [|j]; simpl; auto. Qed.

  Lemma sim_replace k v h s m : sim h s m ->
    match sm_replace_if_exists k v m with
    | Ok m' => exists h' s', h_replace k v h s = Ok (h', s') /\ sim h' s' m'
    | Err => False
    | Panic => h_replace k v h s = Panic
    end.
  Proof.
    intros H. unfold h_replace, replace_if_exists. rewrite (sim_index_of k h s m H).
    destruct (sm_index_of k m) as [[j|]| |] eqn:E; cbn [bind].
    - eexists _, _. split; [reflexivity|].
      assert (j < List.length (ordered m)) as Hj.
      { unfold index_of, gomap_get, any_hash in E. simpl in E.
        destruct (gomap_find String.eqb k (index m)); [|discriminate].
        destruct (scan String.eqb 0 k (ordered m)) eqn:E2; [|discriminate].
        injection E as ->. apply scan_range in E2. lia. }
      set (a' := set_nth j _ (array h s)).
      assert (nth (arr s) (set_nth (arr s) a' (arrs h)) [] = a') as Ha
          by (apply nth_set_same; apply (sim_arr _ _ _ H)).
      pose proof (sim_len _ _ _ H) as Hl. pose proof (sim_cap _ _ _ H) as Hc.
      split; cbn [arr hlen ix hout arrs idxs ordered index outOrder].
      + rewrite set_nth_length. apply (sim_arr _ _ _ H).
      + rewrite set_nth_length. apply (sim_ix _ _ _ H).
      + rewrite set_val_length. exact Hl.
      + unfold array; simpl. rewrite Ha. unfold a'. rewrite set_nth_length. exact Hc.
      + unfold cells, array; simpl. rewrite Ha. unfold a'. apply firstn_set_val; auto.
        apply (sim_cells _ _ _ H).
      + unfold hindex; simpl. rewrite nth_set_same by apply (sim_ix _ _ _ H).
        f_equal. apply (sim_index _ _ _ H).
      + apply (sim_out _ _ _ H).
    - exists h, s. auto.
    - unfold index_of, gomap_get in E. simpl in E.
      destruct (gomap_find String.eqb k (index m)); [|discriminate].
      destruct (scan String.eqb 0 k (ordered m)); discriminate.
    - reflexivity.
  Qed.

  Lemma sim_new size h : let (h', s') := h_new size h in sim h' s' new_map.
  Proof.
    simpl. split; simpl; try (rewrite app_length; simpl; lia); try lia; auto.
    - unfold hindex; simpl. rewrite app_nth2, Nat.sub_diag by lia. reflexivity.
  Qed.

  (** The map seen through its own struct is the map of OMap.v, for every growth policy, every initial
      capacity and every history. *)
  Lemma h_edits_sim es h s m : sim h s m ->
    match fold_res o_edit m es with
    | Ok m' => exists h' s', fold_res h_edit (h, s) es = Ok (h', s') /\ sim h' s' m'
    | Err => False
    | Panic => fold_res h_edit (h, s) es = Panic
    end.
  Proof.
    revert h s m. induction es as [|e es IH]; intros h s m H; cbn [fold_res].
    - exists h, s. auto.
    - assert (match o_edit m e with
              | Ok m' => exists h' s', h_edit (h, s) e = Ok (h', s') /\ sim h' s' m'
              | Err => False
              | Panic => h_edit (h, s) e = Panic
              end) as He.
      { destruct e; simpl; [apply sim_put|apply sim_replace|apply sim_delete]; exact H. }
      destruct (o_edit m e) as [m1| |]; cbn [bind].
      + destruct He as [h1 [s1 [E Hs]]]. rewrite E. cbn [bind]. apply IH; exact Hs.
      + contradiction.
      + rewrite He. reflexivity.
  Qed.

  (** Appending does not change what an earlier copy enumerates. *)
  Lemma put_fresh_copy k v h s h' s' m c :
    sim h s m -> gomap_find String.eqb k (index m) = None ->
    arr c = arr s -> hlen c <= hlen s ->
    h_put k v h s = Ok (h', s') -> h_entries h' c = h_entries h c.
  Proof.
    intros H Hk Ha Hlen E. unfold h_put, h_delete, h_index_of in E.
    rewrite (sim_index _ _ _ H), Hk in E. cbn [bind] in E. unfold h_append in E.
    assert (array (mkMem (arrs h) (set_nth (ix s) (gomap_upd String.eqb k v (hindex h s)) (idxs h))) s
            = array h s) as Hx by reflexivity.
    rewrite <- (sim_index _ _ _ H) in *. rewrite Hx in E.
    unfold h_entries, cells.
    destruct (Nat.ltb_spec (hlen s) (List.length (array h s))) as [L|L]; injection E as <- <-.
    - unfold array at 1; cbn [arrs]. rewrite Ha, nth_set_same by apply (sim_arr _ _ _ H).
      rewrite firstn_set by lia. unfold array. rewrite Ha. reflexivity.
    - unfold array at 1; cbn [arrs]. rewrite app_nth1; [reflexivity|].
      rewrite Ha. apply (sim_arr _ _ _ H).
  Qed.

  (** Edits leave alone every struct that has another array and another index. *)
  Lemma edit_frame e h s h' s' c :
    h_edit (h, s) e = Ok (h', s') ->
    arr c < List.length (arrs h) -> arr c <> arr s -> ix c <> ix s ->
    h_entries h' c = h_entries h c /\ hindex h' c = hindex h c.
  Proof.
    intros E Hc Ha Hi. unfold h_entries, cells.
    enough (array h' c = array h c /\ hindex h' c = hindex h c) as [-> ->] by auto.
    assert (forall k h1 s1, h_delete k h s = Ok (h1, s1) ->
              array h1 c = array h c /\ hindex h1 c = hindex h c /\ arr s1 = arr s /\ ix s1 = ix s
              /\ List.length (arrs h1) = List.length (arrs h)) as Hd.
    { intros k h1 s1. unfold h_delete. destruct (h_index_of k h s) as [[j|]| |]; cbn [bind]; try discriminate.
      - intros X; injection X as <- <-. unfold array, hindex; cbn [arrs idxs arr ix].
        rewrite !nth_set_other by auto. rewrite set_nth_length. auto.
      - intros X; injection X as <- <-. auto. }
    destruct e as [k v|k v|k]; cbn [h_edit fst snd] in E.
    - unfold h_put in E. destruct (h_delete k h s) as [[h1 s1]| |] eqn:E1; cbn [bind] in E; try discriminate.
      destruct (Hd k h1 s1 E1) as [H1 [H2 [H3 [H4 H5]]]].
      injection E as E. unfold h_append in E.
      destruct (hlen s1 <? _)%nat; injection E as <- <-.
      + split; [rewrite <- H1|rewrite <- H2]; apply nth_set_other; congruence.
      + split; [rewrite <- H1|rewrite <- H2]; [apply app_nth1; cbn [arrs]; lia|].
        apply nth_set_other; congruence.
    - unfold h_replace in E. destruct (h_index_of k h s) as [[j|]| |]; cbn [bind] in E; try discriminate;
        injection E as <- <-; auto.
      split; apply nth_set_other; congruence.
    - apply Hd in E. tauto.
  Qed.
End Slice.

Arguments mkMem {V}.
Arguments arrs {V}.
Arguments idxs {V}.
Arguments cells {V}.
Arguments hindex {V}.
Arguments h_new {V}.
Arguments h_index_of {V}.
Arguments h_delete {V}.
Arguments h_put {V}.
Arguments h_replace {V}.
Arguments h_edit {V}.
Arguments o_edit {V}.
Arguments h_entries {V}.
Arguments EPut {V}.
Arguments EReplace {V}.
Arguments EDelete {V}.
Arguments sim {V}.

Lemma copy_positive (V : Type) (grow : nat -> nat) :
  (forall (h0 : mem V) size es m', fold_res o_edit new_map es = Ok m' ->
     exists h s, fold_res (h_edit grow) (h_new size h0) es = Ok (h, s) /\
       h_entries h s = map Some (ordered m') /\ hindex h s = index m') /\
  (forall e (h : mem V) s h' s' c, h_edit grow (h, s) e = Ok (h', s') ->
     arr c < List.length (arrs h) -> arr c <> arr s -> ix c <> ix s ->
     h_entries h' c = h_entries h c /\ hindex h' c = hindex h c) /\
  (forall k v (h : mem V) s m h' s' c, sim h s m -> gomap_find String.eqb k (index m) = None ->
     arr c = arr s -> hlen c <= hlen s ->
     h_edit grow (h, s) (EPut k v) = Ok (h', s') -> h_entries h' c = h_entries h c).
Proof.
  split; [|split].
  - intros h0 size es m' E. pose proof (sim_new V size h0) as Hn.
    destruct (h_new size h0) as [h s]. pose proof (h_edits_sim V grow es h s new_map Hn) as Hs.
    rewrite E in Hs. destruct Hs as [h' [s' [E' Hs]]]. exists h', s'. split; [exact E'|].
    split; [apply (sim_cells _ _ _ _ Hs)|apply (sim_index _ _ _ _ Hs)].
  - apply edit_frame.
  - intros k v h s m h' s' c Hs Hk Ha Hl E. eapply put_fresh_copy; eauto.
Qed.

(** Any memory, initial capacity and growth policy. *)
Lemma copy_counterexample (grow : nat -> nat) (h0 : mem nat) (size : nat) :
  exists h s h' s',
    fold_res (h_edit grow) (h_new size h0) [EPut "a" 1; EPut "b" 2; EPut "c" 3] = Ok (h, s) /\
    h_entries h s = [Some ("a", 1); Some ("b", 2); Some ("c", 3)] /\
    h_edit grow (h, s) (EDelete "a") = Ok (h', s') /\
    h_entries h' s = [Some ("b", 2); Some ("c", 3); Some ("c", 3)] /\
    exists h'' s'', h_edit grow (h', s') (EPut "d" 4) = Ok (h'', s'') /\
      h_entries h'' s = [Some ("b", 2); Some ("c", 3); Some ("d", 4)] /\
      exists h3 s3, h_edit grow (h'', s'') (EPut "e" 5) = Ok (h3, s3) /\
        h_index_of "e" h3 s = Panic.
Proof.
  pose proof (sim_new nat size h0) as Hn. destruct (h_new size h0) as [hn sn].
  pose proof (h_edits_sim nat grow [EPut "a" 1; EPut "b" 2; EPut "c" 3] hn sn new_map Hn) as H1.
  change (fold_res o_edit new_map _)
    with (@Ok (omap string nat) (mkOMap [("a", 1); ("b", 2); ("c", 3)] [("a", 1); ("b", 2); ("c", 3)] true)) in H1.
  cbv iota beta in H1. destruct H1 as [h [s [E1 S1]]].
  destruct S1 as [Sa Si Sl Sc Scs Six So]. simpl in Sl, Scs, Six, So.
  destruct h as [ar id]. destruct s as [a l i o]. simpl in Sl, So. subst l o.
  unfold cells, array, hindex in *. cbn [arrs idxs arr ix hlen] in *.
  remember (nth a ar []) as A eqn:EA.
  destruct A as [|c1 [|c2 [|c3 rest]]]; simpl in Scs; try discriminate.
  injection Scs as -> -> ->.
  set (d1 := [Some ("b", 2); Some ("c", 3)] ++ Some ("c", 3) :: rest).
  set (d2 := [Some ("b", 2); Some ("c", 3)] ++ Some ("d", 4) :: rest).
  set (i1 := [("b", 2); ("c", 3)]).
  set (i2 := [("b", 2); ("c", 3); ("d", 4)]).
  set (i3 := [("b", 2); ("c", 3); ("d", 4); ("e", 5)]).
  set (ar1 := set_nth a d1 ar). set (id1 := set_nth i i1 id).
  set (ar2 := set_nth a d2 ar1). set (id2 := set_nth i i2 id1). set (id3 := set_nth i i3 id2).
  assert (nth a ar1 [] = d1) as A1 by (apply nth_set_same; exact Sa).
  assert (nth i id1 [] = i1) as I1 by (apply nth_set_same; exact Si).
  assert (nth a ar2 [] = d2) as A2
      by (apply nth_set_same; unfold ar1; rewrite set_nth_length; exact Sa).
  assert (nth i id2 [] = i2) as I2
      by (apply nth_set_same; unfold id1; rewrite set_nth_length; exact Si).
  assert (nth i id3 [] = i3) as I3
      by (apply nth_set_same; unfold id2, id1; rewrite !set_nth_length; exact Si).
  assert (h_edit grow (mkMem ar id, mkH a 3 i true) (EDelete "a") = Ok (mkMem ar1 id1, mkH a 2 i true)) as E2.
  { cbn [h_edit fst snd]. unfold h_delete, h_index_of, cells, array, hindex. cbn [arrs idxs arr ix hlen hout].
    rewrite Six, <- EA. reflexivity. }
  exists (mkMem ar id), (mkH a 3 i true), (mkMem ar1 id1), (mkH a 2 i true). split; [exact E1|].
  split; [unfold h_entries, cells, array; cbn [arrs arr hlen]; rewrite <- EA; reflexivity|].
  split; [exact E2|].
  split; [unfold h_entries, cells, array; cbn [arrs arr hlen]; rewrite A1; reflexivity|].
  assert (h_edit grow (mkMem ar1 id1, mkH a 2 i true) (EPut "d" 4) = Ok (mkMem ar2 id2, mkH a 3 i true)) as E3.
  { cbn [h_edit fst snd]. unfold h_put, h_delete, h_index_of, cells, array, hindex. cbn [arrs idxs arr ix hlen hout].
    rewrite I1. cbn [bind gomap_find i1 String.eqb Ascii.eqb Bool.eqb].
    unfold h_append, hindex, array. cbn [arrs idxs arr ix hlen hout]. rewrite A1, I1. reflexivity. }
  exists (mkMem ar2 id2), (mkH a 3 i true). split; [exact E3|].
  split; [unfold h_entries, cells, array; cbn [arrs arr hlen]; rewrite A2; reflexivity|].
  cbn [h_edit fst snd]. unfold h_put, h_delete, h_index_of at 1, hindex at 1. cbn [arrs idxs arr ix hlen hout].
  rewrite I2. cbn [bind gomap_find i2 String.eqb Ascii.eqb Bool.eqb].
  unfold h_append, hindex, array, cells. cbn [arrs idxs arr ix hlen hout]. rewrite A2, I2.
  change (gomap_upd String.eqb "e" 5 i2) with i3. change (set_nth i i3 id2) with id3.
  destruct (3 <? List.length d2)%nat eqn:EL.
  - eexists _, _. split; [reflexivity|]. unfold h_index_of, hindex, cells, array. cbn [arrs idxs arr ix hlen].
    rewrite I3. rewrite nth_set_same; [reflexivity|].
    unfold ar2, ar1. rewrite !set_nth_length. exact Sa.
  - eexists _, _. split; [reflexivity|]. unfold h_index_of, hindex, cells, array. cbn [arrs idxs arr ix hlen].
    rewrite I3. rewrite app_nth1 by (unfold ar2, ar1; rewrite !set_nth_length; exact Sa). rewrite A2. reflexivity.
Qed.
