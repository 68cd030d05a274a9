(** Goroutines: proofs for C71 and C72. *)
From Coq Require Import Lia.
From Verif Require Import Base OMap Conc ConcSpec.

Lemma set_at_length {A} n (x : A) l : List.length (set_at n x l) = List.length l.
Proof. revert n. induction l as [|y l IH]; intros [|n]; cbn; auto. Qed.

Lemma nth_error_set_at {A} i j (x : A) l : nth_error (set_at i x l) j = if (i =? j)%nat then match nth_error l j with Some _ => Some x | None => None end else nth_error l j.
Proof.
  revert i j. induction l as [|y l IH]; intros [|i] [|j]; cbn; try reflexivity.
  - destruct (i =? j)%nat; reflexivity.
  - apply IH.
Qed.

Lemma nth_set_at {A} i j (x d : A) l : (j < List.length l)%nat -> nth j (set_at i x l) d = if (i =? j)%nat then x else nth j l d.
Proof.
  revert i j. induction l as [|y l IH]; intros [|i] [|j] H; cbn in *; try lia; try reflexivity. apply IH. lia.
Qed.

Lemma set_at_app {A} (x y : A) a b : set_at (List.length a) x (a ++ y :: b) = a ++ x :: b.
Proof. induction a as [|z a IH]; cbn; [reflexivity|]. rewrite IH. reflexivity. Qed.

Lemma set_at_id {A} n (x d : A) l : nth n l d = x -> set_at n x l = l.
Proof. revert n. induction l as [|y l IH]; intros [|n] H; cbn in *; try congruence. rewrite IH by exact H. reflexivity. Qed.

Lemma set_at_twice {A} n (x y : A) l : set_at n x (set_at n y l) = set_at n x l.
Proof. revert n. induction l as [|z l IH]; intros [|n]; cbn; try reflexivity. rewrite IH. reflexivity. Qed.

Section Proofs.
  Context {K V : Type}.
  Variable keq : K -> K -> bool.
  Variable hashable : K -> bool.
  Variable zero : K * V.
  Variable grow : nat -> nat.

  Local Notation alone := (alone keq zero grow).
  Local Notation access := (access keq zero grow).
  Local Notation method := (method keq hashable).
  Local Notation compile := (compile keq hashable).
  Local Notation answer := (answer keq hashable).
  Local Notation turn := (turn keq zero grow).
  Local Notation play := (play keq zero grow).

  Lemma alone_seq {A B} (p : code K V A) (f : A -> code K V B) s :
    alone (seq p f) s = let (s', o) := alone p s in match o with Some a => alone (f a) s' | None => (s', None) end.
  Proof.
    revert s. induction p as [a| |X a k IH]; intros s; cbn; try reflexivity. destruct (access a s) as [s' x]. apply IH.
  Qed.

  (** ** Reading and writing ranges *)

  Lemma skipn_cons {A} j (l : list A) d : (j < List.length l)%nat -> skipn j l = nth j l d :: skipn (S j) l.
  Proof. revert j. induction l as [|x l IH]; intros [|j] H; cbn in *; try lia; [reflexivity|]. apply IH. lia. Qed.

  Lemma read_alone a j n s : (j + n <= List.length (array s a))%nat -> alone (c_read a j n) s = (s, Some (firstn n (skipn j (array s a)))).
  Proof.
    revert j. induction n as [|n IH]; intros j H; cbn [c_read Conc.alone]; [reflexivity|].
    cbn [Conc.access]. rewrite alone_seq, IH by lia. cbn [Conc.alone]. unfold cell. rewrite (skipn_cons j (array s a) zero) by lia. reflexivity.
  Qed.

  Definition with_array (s : shared K V) a l : shared K V := mkShared (s_hdr s) (set_at a l (s_arrays s)) (s_index s) (s_flag s).

  Lemma array_with s a l : (a < List.length (s_arrays s))%nat -> array (with_array s a l) a = l.
  Proof. intros H. unfold array, with_array. cbn. rewrite nth_set_at by exact H. rewrite Nat.eqb_refl. reflexivity. Qed.

  Lemma write_alone a l : forall j s, (a < List.length (s_arrays s))%nat -> (j + List.length l <= List.length (array s a))%nat ->
    alone (c_write a j l) s = (with_array s a (firstn j (array s a) ++ l ++ skipn (j + List.length l) (array s a)), Some tt).
  Proof.
    induction l as [|e l IH]; intros j s Ha Hj; cbn [c_write Conc.alone].
    - cbn [List.length]. rewrite Nat.add_0_r. cbn [app]. rewrite firstn_skipn. f_equal. unfold with_array. rewrite (set_at_id a (array s a) []) by reflexivity. destruct s; reflexivity.
    - cbn [Conc.access]. cbn [List.length] in Hj. change (set_cell s a j e) with (with_array s a (set_at j e (array s a))). rewrite IH.
      2:{ cbn. rewrite set_at_length. exact Ha. }
      2:{ rewrite array_with by exact Ha. rewrite set_at_length. lia. }
      rewrite array_with by exact Ha. f_equal. unfold with_array. cbn [s_hdr s_arrays s_index s_flag]. rewrite set_at_twice. f_equal. f_equal.
      assert (E : array s a = firstn j (array s a) ++ nth j (array s a) zero :: skipn (S j) (array s a)).
      { rewrite <- skipn_cons by lia. rewrite firstn_skipn. reflexivity. }
      assert (L : List.length (firstn j (array s a)) = j) by (rewrite firstn_length; lia).
      set (A := firstn j (array s a)) in *. set (B := skipn (S j) (array s a)) in *.
      assert (E' : set_at j e (array s a) = A ++ e :: B) by (rewrite E, <- L; apply set_at_app).
      rewrite E'. rewrite <- L at 1. replace (S (List.length A)) with (List.length A + 1)%nat by lia. rewrite firstn_app_2. cbn [firstn].
      rewrite <- app_assoc. f_equal. cbn [app]. f_equal. f_equal.
      replace (S j + List.length l)%nat with (List.length A + S (List.length l))%nat by lia.
      assert (Sk : forall x n, skipn (List.length A + S n) (A ++ x :: B) = skipn n B).
      { intros x n. rewrite skipn_app, skipn_all2 by lia. replace (_ - _)%nat with (S n) by lia. reflexivity. }
      rewrite Sk, E. cbn [List.length]. replace (j + S (List.length l))%nat with (List.length A + S (List.length l))%nat by lia. rewrite Sk. reflexivity.
  Qed.

  (** ** Each method, by itself, does what the map model says *)

  Definition does {A} (p : code K V A) (s : shared K V) (r : res (omap K V * A)) : Prop :=
    match r with
    | Ok (m', a) => exists s', alone p s = (s', Some a) /\ holds s' m'
    | _ => alone p s = (s, None)
    end.

  Lemma scan_alone s k : forall todo j, (j + todo = h_len (s_hdr s))%nat -> (h_len (s_hdr s) <= List.length (array s (h_arr (s_hdr s))))%nat ->
    alone (c_scan keq k todo j) s = (s, match scan keq j k (skipn j (firstn (h_len (s_hdr s)) (array s (h_arr (s_hdr s))))) with Some i => Some (Some i) | None => None end).
  Proof.
    set (h := s_hdr s). set (A := array s (h_arr h)). induction todo as [|todo IH]; intros j Hj Hl; cbn [c_scan Conc.alone].
    - rewrite skipn_all2 by (rewrite firstn_length; lia). reflexivity.
    - cbn [Conc.access]. fold h. destruct (Nat.ltb_spec j (h_len h)) as [Hlt|Hge]; [|lia]. cbn [Conc.alone Conc.access].
      assert (L : (j < List.length (firstn (h_len h) A))%nat) by (rewrite firstn_length; lia).
      rewrite (skipn_cons j _ zero L). unfold cell. fold A.
      assert (E : nth j (firstn (h_len h) A) zero = nth j A zero).
      { transitivity (nth j (firstn (h_len h) A ++ skipn (h_len h) A) zero); [rewrite app_nth1 by exact L; reflexivity|rewrite firstn_skipn; reflexivity]. }
      rewrite E. destruct (nth j A zero) as [k' v']. cbn [scan fst]. destruct (keq k' k); [reflexivity|]. apply IH; lia.
  Qed.

  Lemma find_does s m k : holds s m -> does (c_find hashable k) s (do o <- gomap_get keq hashable k (index m); Ok (m, o)).
  Proof.
    intros H. unfold c_find, gomap_get. destruct (hashable k); cbn; [|reflexivity]. exists s. split; [|exact H].
    destruct H as [_ [_ [_ [_ [E _]]]]]. rewrite E. reflexivity.
  Qed.

  Lemma find_alone s m k : holds s m -> alone (c_find hashable k) s = (s, match gomap_get keq hashable k (index m) with Ok o => Some o | _ => None end).
  Proof.
    intros [_ [_ [_ [_ [E _]]]]]. unfold c_find, gomap_get. destruct (hashable k); cbn; [|reflexivity]. rewrite E. reflexivity.
  Qed.

  Lemma index_of_alone s m k : holds s m ->
    alone (c_index_of keq hashable k) s = (s, match index_of keq hashable k m with Ok p => Some p | _ => None end).
  Proof.
    intros H. unfold c_index_of, index_of. rewrite alone_seq, (find_alone s m k H). destruct (gomap_get keq hashable k (index m)) as [[v|]| |]; cbn [bind]; try reflexivity.
    cbn [Conc.alone Conc.access]. destruct H as [H1 [H2 [H3 [H4 [H5 H6]]]]]. rewrite scan_alone by lia. cbn [skipn]. rewrite H4.
    destruct (scan keq 0 k (ordered m)); reflexivity.
  Qed.

  Lemma scan_bound k : forall (l : list (K * V)) j i, scan keq j k l = Some i -> (j <= i < j + List.length l)%nat.
  Proof.
    induction l as [|[k' v'] l IH]; intros j i; cbn [scan]; [discriminate|]. destruct (keq k' k).
    - intros E. injection E as <-. cbn. lia.
    - intros E. apply IH in E. cbn. lia.
  Qed.

  Lemma index_of_bound (m : omap K V) k j : index_of keq hashable k m = Ok (Some j) -> (j < List.length (ordered m))%nat /\ hashable k = true.
  Proof.
    unfold index_of, gomap_get. destruct (hashable k); cbn [bind]; [|discriminate]. destruct (gomap_find keq k (index m)); [|discriminate].
    destruct (scan keq 0 k (ordered m)) as [i|] eqn:E; [|discriminate]. intros X. injection X as <-. apply scan_bound in E. split; [lia|reflexivity].
  Qed.

  Lemma holds_len (s : shared K V) m : holds s m -> h_len (s_hdr s) = List.length (ordered m).
  Proof. intros [_ [H2 [H3 [<- _]]]]. rewrite firstn_length. lia. Qed.

  (** append, and the write of the header after it *)
  Lemma append_does (s : shared K V) n l ix fl pre : let h := s_hdr s in
    (h_arr h < List.length (s_arrays s))%nat -> List.length (array s (h_arr h)) = h_cap h -> (n <= h_cap h)%nat -> firstn n (array s (h_arr h)) = pre ->
    s_index s = ix -> s_flag s = fl ->
    exists s' h', alone (c_append (mkHdr (h_arr h) n (h_cap h)) l) s = (s', Some h') /\ s_index s' = ix /\ s_flag s' = fl /\
      forall ix', holds (mkShared h' (s_arrays s') ix' (s_flag s')) (mkOMap (pre ++ l) ix' fl).
  Proof.
    intros h H1 H2 H3 H4 H5 H6. unfold c_append. cbn [h_arr h_len h_cap]. destruct (Nat.leb_spec (n + List.length l) (h_cap h)) as [Hc|Hc].
    - rewrite alone_seq, write_alone by lia. cbn [Conc.alone]. eexists. eexists. split; [reflexivity|]. split; [exact H5|]. split; [exact H6|].
      intros ix'. unfold holds. cbn [s_hdr s_arrays s_index s_flag h_arr h_len h_cap with_array ordered index outOrder].
      assert (E : forall x, array (mkShared x (set_at (h_arr h) (firstn n (array s (h_arr h)) ++ l ++ skipn (n + List.length l) (array s (h_arr h))) (s_arrays s)) ix' (s_flag s)) (h_arr h)
        = firstn n (array s (h_arr h)) ++ l ++ skipn (n + List.length l) (array s (h_arr h))).
      { intros x. unfold array at 1. cbn. rewrite nth_set_at by exact H1. rewrite Nat.eqb_refl. reflexivity. }
      rewrite E. rewrite H4. assert (Lp : List.length pre = n) by (rewrite <- H4, firstn_length; lia).
      repeat split; try assumption; try reflexivity.
      + rewrite set_at_length. exact H1.
      + rewrite !app_length, skipn_length. lia.
      + rewrite app_assoc. rewrite <- (Nat.add_0_r (n + List.length l)). replace (n + List.length l)%nat with (List.length (pre ++ l)) by (rewrite app_length; lia).
        rewrite firstn_app_2. cbn. rewrite app_nil_r. reflexivity.
    - rewrite alone_seq, read_alone by lia. cbn [skipn Conc.alone Conc.access]. rewrite H4.
      eexists. eexists. split; [reflexivity|]. split; [exact H5|]. split; [exact H6|].
      intros ix'. unfold holds. cbn [s_hdr s_arrays s_index s_flag h_arr h_len h_cap ordered index outOrder].
      assert (E : forall x L, array (mkShared x (s_arrays s ++ [L]) ix' (s_flag s)) (List.length (s_arrays s)) = L).
      { intros x L. unfold array. cbn. rewrite nth_middle. reflexivity. }
      rewrite E. rewrite !app_length. cbn [List.length]. repeat split; try assumption; try reflexivity; try lia.
      rewrite <- (Nat.add_0_r (List.length pre + List.length l)). rewrite <- app_length. rewrite firstn_app_2. cbn. rewrite app_nil_r. reflexivity.
  Qed.

  Lemma delete_does s m k : holds s m -> does (c_delete keq hashable k) s (do m' <- delete keq hashable k m; Ok (m', tt)).
  Proof.
    intros H. unfold c_delete, delete, does. rewrite alone_seq, (index_of_alone s m k H). destruct (index_of keq hashable k m) as [[j|]| |] eqn:E; cbn [bind]; try reflexivity.
    2:{ exists s. split; [reflexivity|exact H]. }
    apply index_of_bound in E as [Hj Hh]. unfold gomap_delete. rewrite Hh. cbn [bind]. cbn [Conc.alone Conc.access].
    pose proof (holds_len s m H) as Hl. destruct H as [H1 [H2 [H3 [H4 [H5 H6]]]]].
    destruct (Nat.leb_spec j (h_cap (s_hdr s))); [|lia]. destruct (Nat.leb_spec (S j) (h_len (s_hdr s))); [|lia]. cbn [andb].
    assert (Hjc : (j <= h_cap (s_hdr s))%nat) by lia. rewrite alone_seq, read_alone by lia. rewrite alone_seq.
    set (h := s_hdr s) in *. set (A := array s (h_arr h)) in *. assert (F1 : firstn j A = firstn j (ordered m)).
    { rewrite <- H4, firstn_firstn. f_equal. lia. }
    assert (F2 : firstn (h_len h - S j) (skipn (S j) A) = skipn (S j) (ordered m)).
    { rewrite <- H4. rewrite firstn_skipn_comm. f_equal. f_equal. lia. }
    destruct (append_does s j (firstn (h_len h - S j) (skipn (S j) A)) (index m) (outOrder m) (firstn j (ordered m)) H1 H2 Hjc F1 H5 H6) as [s' [h' [E [E1 [E2 E3]]]]].
    fold h in E. rewrite E. cbn [Conc.alone Conc.access]. eexists. split; [reflexivity|]. cbn [s_hdr s_arrays s_index s_flag]. rewrite E1. rewrite F2 in E3. apply E3.
  Qed.

  Lemma put_does s m k v : holds s m -> does (c_put keq hashable k v) s (do m' <- put keq hashable k v m; Ok (m', tt)).
  Proof.
    intros H. unfold c_put, put, does. rewrite alone_seq. pose proof (delete_does s m k H) as D. unfold does in D.
    assert (Hh : forall m', delete keq hashable k m = Ok m' -> hashable k = true).
    { intros m'. unfold delete, index_of, gomap_get. destruct (hashable k); [reflexivity|]. cbn. discriminate. }
    destruct (delete keq hashable k m) as [m1| |]; cbn [bind] in *.
    - destruct D as [s1 [E1 S1]]. rewrite E1. unfold gomap_set. rewrite (Hh m1 eq_refl). cbn [bind Conc.alone Conc.access s_hdr]. rewrite alone_seq.
      destruct S1 as [H1 [H2 [H3 [H4 [H5 H6]]]]].
      destruct (append_does (mkShared (s_hdr s1) (s_arrays s1) (gomap_upd keq k v (s_index s1)) (s_flag s1)) (h_len (s_hdr s1)) [(k, v)] _ _ (ordered m1) H1 H2 H3 H4 eq_refl H6)
        as [s' [h' [E [F1 [F2 F3]]]]].
      cbn [s_hdr] in E. replace (mkHdr (h_arr (s_hdr s1)) (h_len (s_hdr s1)) (h_cap (s_hdr s1))) with (s_hdr s1) in E by (destruct (s_hdr s1); reflexivity).
      rewrite E. cbn [Conc.alone Conc.access]. eexists. split; [reflexivity|]. rewrite F1. cbn [s_index]. rewrite H5. apply F3.
    - rewrite D. reflexivity.
    - rewrite D. reflexivity.
  Qed.

  Lemma set_val_at j v (l : list (K * V)) : set_at j (fst (nth j l zero), v) l = set_val j v l.
  Proof. revert j. induction l as [|[k' v'] l IH]; intros [|j]; cbn; try reflexivity. rewrite IH. reflexivity. Qed.

  Lemma firstn_set_at {A} n j (x : A) l : firstn n (set_at j x l) = set_at j x (firstn n l).
  Proof. revert n j. induction l as [|y l IH]; intros [|n] [|j]; cbn; try reflexivity. rewrite IH. reflexivity. Qed.

  Lemma replace_does s m k v : holds s m -> does (c_replace keq hashable k v) s (do m' <- replace_if_exists keq hashable k v m; Ok (m', tt)).
  Proof.
    intros H. unfold c_replace, replace_if_exists, does. rewrite alone_seq, (index_of_alone s m k H).
    destruct (index_of keq hashable k m) as [[j|]| |] eqn:E; cbn [bind]; try reflexivity.
    2:{ exists s. split; [reflexivity|exact H]. }
    apply index_of_bound in E as [Hj Hh]. unfold gomap_set. rewrite Hh. cbn [bind Conc.alone Conc.access s_hdr].
    pose proof (holds_len s m H) as Hl. destruct H as [H1 [H2 [H3 [H4 [H5 H6]]]]].
    destruct (Nat.ltb_spec j (h_len (s_hdr s))); [|lia]. cbn [Conc.alone Conc.access]. eexists. split; [reflexivity|].
    unfold holds, set_cell. cbn [s_hdr s_arrays s_index s_flag ordered index outOrder]. set (h := s_hdr s) in *.
    assert (E : forall x e, array (mkShared h (set_at (h_arr h) e (s_arrays s)) x (s_flag s)) (h_arr h) = e).
    { intros x e. unfold array. cbn. rewrite nth_set_at by exact H1. rewrite Nat.eqb_refl. reflexivity. }
    rewrite E. rewrite set_at_length. repeat split; try assumption; try congruence.
    - rewrite set_at_length. exact H2.
    - change (firstn (h_len h) (set_at j (fst (nth j (array s (h_arr h)) zero), v) (array s (h_arr h))) = set_val j v (ordered m)).
      rewrite firstn_set_at, H4, <- set_val_at. f_equal. f_equal. f_equal. rewrite <- H4.
      transitivity (nth j (firstn (h_len h) (array s (h_arr h)) ++ skipn (h_len h) (array s (h_arr h))) zero); [rewrite firstn_skipn; reflexivity|].
      rewrite app_nth1; [reflexivity|]. rewrite firstn_length. lia.
  Qed.

  Lemma replace_or_put_does s m k v : holds s m -> does (c_replace_or_put keq hashable k v) s (do m' <- replace_or_put keq hashable k v m; Ok (m', tt)).
  Proof.
    intros H. unfold c_replace_or_put, replace_or_put, has, does. rewrite alone_seq, (find_alone s m k H).
    destruct (gomap_get keq hashable k (index m)) as [[x|]| |]; cbn [bind]; try reflexivity.
    - apply replace_does. exact H.
    - apply put_does. exact H.
  Qed.

  Lemma at_does s m j : holds s m -> does (c_at j) s (do e <- at_ j m; Ok (m, e)).
  Proof.
    intros H. unfold c_at, at_, does. cbn [Conc.alone Conc.access]. pose proof (holds_len s m H) as Hl.
    pose proof H as [H1 [H2 [H3 [H4 [H5 H6]]]]]. destruct (Z.leb_spec 0 j); destruct (Z.ltb_spec j 0); try lia; cbn [andb]; [|reflexivity].
    destruct (Z.ltb_spec j (Z.of_nat (h_len (s_hdr s)))).
    - cbn [Conc.alone Conc.access]. assert (L : (Z.to_nat j < List.length (ordered m))%nat) by lia.
      rewrite (nth_error_nth' _ zero L). cbn [bind]. exists s. split; [|exact H]. f_equal. f_equal. unfold cell. rewrite <- H4.
      transitivity (nth (Z.to_nat j) (firstn (h_len (s_hdr s)) (array s (h_arr (s_hdr s))) ++ skipn (h_len (s_hdr s)) (array s (h_arr (s_hdr s)))) zero);
        [rewrite firstn_skipn; reflexivity|]. rewrite app_nth1; [reflexivity|]. rewrite H4. exact L.
    - assert (nth_error (ordered m) (Z.to_nat j) = None) as -> by (apply nth_error_None; lia). reflexivity.
  Qed.

  Lemma each_alone s m : holds s m -> forall todo j, (j + todo = List.length (ordered m))%nat -> alone (c_each todo j) s = (s, Some (skipn j (ordered m))).
  Proof.
    intros H. pose proof (holds_len s m H) as Hl. destruct H as [H1 [H2 [H3 [H4 [H5 H6]]]]]. induction todo as [|todo IH]; intros j Hj; cbn [c_each Conc.alone].
    - rewrite skipn_all2 by lia. reflexivity.
    - cbn [Conc.access]. destruct (Nat.ltb_spec j (h_len (s_hdr s))); [|lia]. cbn [Conc.alone Conc.access].
      destruct (Nat.ltb_spec j (h_len (s_hdr s))); [|lia]. cbn [Conc.alone Conc.access]. rewrite alone_seq, IH by lia. cbn [Conc.alone].
      rewrite (skipn_cons j (ordered m) zero) by lia. f_equal. f_equal. f_equal. unfold cell. rewrite <- surjective_pairing. rewrite <- H4.
      transitivity (nth j (firstn (h_len (s_hdr s)) (array s (h_arr (s_hdr s))) ++ skipn (h_len (s_hdr s)) (array s (h_arr (s_hdr s)))) zero);
        [rewrite firstn_skipn; reflexivity|]. rewrite app_nth1; [reflexivity|]. rewrite H4. lia.
  Qed.

  Lemma for_each_collect (m : omap K V) : for_each collect [] m = Ok (ordered m, m).
  Proof.
    unfold for_each, len. assert (G : forall todo j acc, (j + todo = List.length (ordered m))%nat -> for_each_loop todo j collect (acc, m) = Ok (acc ++ skipn j (ordered m), m)).
    { induction todo as [|todo IH]; intros j acc Hj; cbn [for_each_loop snd].
      - rewrite skipn_all2 by lia. rewrite app_nil_r. reflexivity.
      - rewrite (nth_error_nth' _ zero) by lia. rewrite (skipn_cons j (ordered m) zero) by lia. destruct (nth j (ordered m) zero) as [k v]. cbn [collect bind fst snd].
        rewrite IH by lia. rewrite <- app_assoc. reflexivity. }
    rewrite G by lia. reflexivity.
  Qed.

  Lemma told_does {A} (p : code K V A) (f : A -> obs K V) s r : does p s r -> does (told p f) s (do x <- r; Ok (fst x, SObs (f (snd x)))).
  Proof.
    unfold does, told. destruct r as [[m' a]| |]; cbn [bind fst snd]; rewrite alone_seq.
    - intros [s' [E H]]. rewrite E. cbn. eauto.
    - intros ->. reflexivity.
    - intros ->. reflexivity.
  Qed.

  Theorem method_does c s m : holds s m -> does (method c) s (answer m c).
  Proof.
    intros H. pose proof (holds_len s m H) as Hl. destruct c as [o| |].
    - assert (U : forall (p : code K V unit) r, does p s (do m' <- r; Ok (m', tt)) -> does (told p (fun _ => RNone)) s (do x <- upd K V r; Ok (fst x, SObs (snd x)))).
      { intros p r D. apply (told_does p (fun _ => RNone)) in D. unfold upd. destruct r as [m'| |]; exact D. }
      destruct o as [k v|k [v|]|k v|k v|k|b|k|k|k| |j|k| ]; cbn [method ConcSpec.answer step put_if_not_nil].
      + apply U, put_does, H.
      + apply U, put_does, H.
      + cbn. eauto.
      + apply U, replace_or_put_does, H.
      + apply U, replace_does, H.
      + apply U, delete_does, H.
      + unfold does. cbn. eexists. split; [reflexivity|]. destruct H as [H1 [H2 [H3 [H4 [H5 H6]]]]]. repeat split; assumption.
      + pose proof (told_does _ RVal _ _ (find_does s m k H)) as D. unfold get, ask. destruct (gomap_get keq hashable k (index m)); exact D.
      + pose proof (told_does _ RVal _ _ (find_does s m k H)) as D. unfold get, ask. destruct (gomap_get keq hashable k (index m)); exact D.
      + pose proof (told_does _ (fun o => RBool (match o with Some _ => true | None => false end)) _ _ (find_does s m k H)) as D. unfold has, ask.
        destruct (gomap_get keq hashable k (index m)); exact D.
      + cbn. exists s. split; [|exact H]. rewrite Hl. reflexivity.
      + pose proof (told_does _ REntry _ _ (at_does s m j H)) as D. unfold ask. destruct (at_ j m); exact D.
      + assert (D : does (c_index_of keq hashable k) s (do p <- index_of keq hashable k m; Ok (m, p))).
        { unfold does. rewrite (index_of_alone s m k H). destruct (index_of keq hashable k m); cbn; eauto. }
        apply (told_does _ (fun p => RInt (match p with Some j => Z.of_nat j | None => (-1)%Z end))) in D. unfold ask. destruct (index_of keq hashable k m); exact D.
      + rewrite for_each_collect. cbn [bind fst snd]. unfold does, told. rewrite alone_seq. cbn [Conc.alone Conc.access]. rewrite Hl, (each_alone s m H) by lia.
        cbn. eauto.
    - unfold does. cbn [method ConcSpec.answer Conc.alone Conc.access]. pose proof H as [H1 [H2 [H3 [H4 [H5 H6]]]]].
      rewrite alone_seq, read_alone by lia. cbn [skipn Conc.alone]. rewrite H4, H6. eauto.
    - unfold does. cbn [method ConcSpec.answer Conc.alone Conc.access]. pose proof H as [H1 [H2 [H3 [H4 [H5 H6]]]]]. rewrite H6. destruct (outOrder m) eqn:Eo.
      + rewrite alone_seq, read_alone by lia. cbn [skipn Conc.alone]. rewrite H4. eauto.
      + cbn [Conc.alone Conc.access]. rewrite H5. eauto.
  Qed.

  Lemma compile_alone {R} (p : client K V R) : forall s m, holds s m ->
    match result keq hashable m p with
    | Ok r => exists s', alone (compile p) s = (s', Some r)
    | _ => exists s', alone (compile p) s = (s', None)
    end.
  Proof.
    induction p as [r|c k IH]; intros s m H; cbn [result Conc.compile]; [cbn; eauto|].
    rewrite alone_seq. pose proof (method_does c s m H) as D. unfold does in D. destruct (answer m c) as [[m1 x]| |]; cbn [bind fst snd].
    - destruct D as [s1 [E H1]]. rewrite E. apply IH. exact H1.
    - rewrite D. eauto.
    - rewrite D. eauto.
  Qed.

  (** ** Readers *)

  (** Code that changes nothing. *)
  Fixpoint quiet {A} (p : code K V A) : Prop :=
    match p with
    | Do a k => snd (touches a) = false /\ (forall s, fst (access a s) = s) /\ forall x, quiet (k x)
    | _ => True
    end.

  Lemma quiet_seq {A B} (p : code K V A) (f : A -> code K V B) : quiet p -> (forall a, quiet (f a)) -> quiet (seq p f).
  Proof. intros H Hf. induction p as [a| |X a k IH]; cbn in *; [apply Hf|exact I|]. destruct H as [H1 [H2 H3]]. auto. Qed.

  Ltac quiet := repeat (first [exact I | (apply quiet_seq; [|intros ?]) | (split; [reflexivity|split; [reflexivity|intros ?]])]).

  Lemma quiet_find k : quiet (c_find hashable k : code K V _).
  Proof. unfold c_find. destruct (hashable k); quiet. Qed.

  Lemma quiet_scan k : forall todo j, quiet (c_scan keq k todo j : code K V _).
  Proof.
    induction todo as [|todo IH]; intros j; cbn [c_scan]; quiet. destruct (j <? h_len _)%nat; quiet. destruct (keq _ k); quiet. apply IH.
  Qed.

  Lemma quiet_index_of k : quiet (c_index_of keq hashable k : code K V _).
  Proof. unfold c_index_of. apply quiet_seq; [apply quiet_find|]. intros [v|]; quiet. apply quiet_scan. Qed.

  Lemma quiet_read a : forall n j, quiet (c_read a j n : code K V _).
  Proof. induction n as [|n IH]; intros j; cbn [c_read]; quiet. apply IH. Qed.

  Lemma quiet_each : forall todo j, quiet (c_each todo j : code K V _).
  Proof.
    induction todo as [|todo IH]; intros j; cbn [c_each]; quiet. destruct (j <? h_len _)%nat; quiet. destruct (j <? h_len _)%nat; quiet. apply IH.
  Qed.

  Lemma quiet_method c : asks c = true -> quiet (method c).
  Proof.
    destruct c as [o| |]; [destruct o; intros E; try discriminate E; cbn [method]; unfold told| |]; intros; cbn [method].
    - apply quiet_seq; [apply quiet_find|]. intros; quiet.
    - apply quiet_seq; [apply quiet_find|]. intros; quiet.
    - apply quiet_seq; [apply quiet_find|]. intros; quiet.
    - quiet.
    - unfold c_at. quiet. destruct (_ && _)%bool; quiet.
    - apply quiet_seq; [apply quiet_index_of|]. intros; quiet.
    - apply quiet_seq; [|intros; quiet]. quiet. apply quiet_each.
    - quiet. apply quiet_read.
    - quiet. match goal with |- quiet (if ?b then _ else _) => destruct b end; quiet. apply quiet_read.
  Qed.

  Lemma quiet_reader {R} (p : client K V R) : reader p -> quiet (compile p).
  Proof. induction 1 as [r|c k Hc Hk IH]; cbn [Conc.compile]; [exact I|]. apply quiet_seq; [apply quiet_method; exact Hc|exact IH]. Qed.

  (** [n] accesses in memory that does not change. *)
  Fixpoint advance {A} (n : nat) (p : code K V A) (s : shared K V) : code K V A :=
    match n, p with
    | S n', Do a k => advance n' (k (snd (access a s))) s
    | _, _ => p
    end.

  Lemma advance_quiet {A} n (p : code K V A) s : quiet p -> quiet (advance n p s) /\ alone (advance n p s) s = alone p s.
  Proof.
    revert p. induction n as [|n IH]; intros p H; [split; [exact H|reflexivity]|]. destruct p as [a| |X a k]; cbn [advance]; [split; [exact I|reflexivity]..|]. destruct H as [H1 [H2 H3]].
    destruct (IH _ (H3 (snd (access a s)))) as [I1 I2]. split; [exact I1|]. rewrite I2. cbn [Conc.alone]. specialize (H2 s). destruct (access a s) as [s' x]. cbn in *. subst s'. reflexivity.
  Qed.

  Lemma advance_S {A} n (p : code K V A) s : advance (S n) p s = match advance n p s with Do a k => k (snd (access a s)) | q => q end.
  Proof.
    revert p. induction n as [|n IH]; intros p; [destruct p; reflexivity|]. destruct p as [a| |X a k]; try reflexivity.
    change (advance (S (S n)) (Do a k) s) with (advance (S n) (k (snd (access a s))) s). rewrite IH. reflexivity.
  Qed.

  Lemma quiet_play {A} (ps : list (code K V A)) s : Forall quiet ps -> forall schedule,
    let st := play schedule (s, ps) in
    fst st = s /\ forall i, nth_error (snd st) i = match nth_error ps i with Some p => Some (advance (count_occ Nat.eq_dec schedule i) p s) | None => None end.
  Proof.
    intros Q schedule. induction schedule as [|j schedule IH] using rev_ind.
    - cbn. split; [reflexivity|]. intros i. destruct (nth_error ps i) as [[]|]; reflexivity.
    - cbn zeta in *. unfold Conc.play in *. rewrite fold_left_app. cbn [fold_left]. set (st := fold_left turn schedule (s, ps)) in *. destruct IH as [I1 I2].
      unfold Conc.turn. rewrite I1. pose proof (I2 j) as Ej.
      assert (C : forall i, count_occ Nat.eq_dec (schedule ++ [j]) i = if Nat.eq_dec j i then S (count_occ Nat.eq_dec schedule i) else count_occ Nat.eq_dec schedule i).
      { intros i. rewrite count_occ_app. cbn. destruct (Nat.eq_dec j i); lia. }
      destruct (nth_error ps j) as [p|] eqn:Ep.
      2:{ rewrite Ej. split; [exact I1|]. intros i. rewrite I2, C. destruct (Nat.eq_dec j i) as [<-|]; [rewrite Ep|]; reflexivity. }
      rewrite Ej. set (c := count_occ Nat.eq_dec schedule) in *.
      assert (Qp : quiet (advance (c j) p s)) by (apply advance_quiet; rewrite Forall_forall in Q; apply Q; eapply nth_error_In; exact Ep).
      assert (Same : match advance (c j) p s with Do _ _ => False | _ => True end -> fst st = s /\
        forall i, nth_error (snd st) i = match nth_error ps i with Some p0 => Some (advance (count_occ Nat.eq_dec (schedule ++ [j]) i) p0 s) | None => None end).
      { intros X. split; [exact I1|]. intros i. rewrite I2, C. destruct (Nat.eq_dec j i) as [<-|]; [|reflexivity]. rewrite Ep, advance_S. fold c.
        destruct (advance (c j) p s); [reflexivity..|destruct X]. }
      destruct (advance (c j) p s) as [a| |X a k] eqn:Ea; [apply Same; exact I..|]. clear Same.
      destruct Qp as [_ [H2 _]].
      assert (Hs : fst (access a s) = s) by apply H2. destruct (access a s) as [s' x] eqn:Ex. cbn [fst] in Hs. subst s'. cbn [fst snd]. split; [reflexivity|].
      intros i. rewrite nth_error_set_at, I2, C. destruct (Nat.eqb_spec j i) as [<-|N].
      + rewrite Ep. destruct (Nat.eq_dec j j); [|congruence]. rewrite advance_S. fold c. rewrite Ea, Ex. reflexivity.
      + destruct (Nat.eq_dec j i); [congruence|]. reflexivity.
  Qed.

  (** The accesses code makes by itself. *)
  Fixpoint cost {A} (p : code K V A) (s : shared K V) : nat :=
    match p with Do a k => S (cost (k (snd (access a s))) (fst (access a s))) | _ => O end.

  Lemma advance_cost {A} (p : code K V A) s : quiet p -> forall n, (cost p s <= n)%nat ->
    advance n p s = match snd (alone p s) with Some a => Ret a | None => Fail end.
  Proof.
    induction p as [a| |X a k IH]; intros H n Hn; [destruct n; reflexivity..|]. destruct H as [H1 [H2 H3]]. cbn [cost] in Hn. destruct n as [|n]; [lia|].
    cbn [advance Conc.alone]. specialize (H2 s). destruct (access a s) as [s' x]. cbn [fst snd] in *. subst s'. apply IH; [apply H3|lia].
  Qed.

  Lemma answer_not_err (m : omap K V) c : answer m c <> Err.
  Proof.
    assert (I1 : forall k (m : omap K V), index_of keq hashable k m <> Err).
    { intros k m0. unfold index_of, gomap_get. destruct (hashable k); cbn; [|discriminate]. destruct (gomap_find keq k (index m0)); [|discriminate].
      destruct (scan keq 0 k (ordered m0)); discriminate. }
    assert (I2 : forall k (m : omap K V), delete keq hashable k m <> Err).
    { intros k m0. unfold delete, gomap_delete. pose proof (I1 k m0). destruct (index_of keq hashable k m0) as [[j|]| |]; cbn; try discriminate; try congruence. destruct (hashable k); discriminate. }
    assert (I3 : forall k v (m : omap K V), put keq hashable k v m <> Err).
    { intros k v m0. unfold put, gomap_set. pose proof (I2 k m0). destruct (delete keq hashable k m0); cbn; try congruence. destruct (hashable k); discriminate. }
    assert (I4 : forall k v (m : omap K V), replace_if_exists keq hashable k v m <> Err).
    { intros k v m0. unfold replace_if_exists, gomap_set. pose proof (I1 k m0). destruct (index_of keq hashable k m0) as [[j|]| |]; cbn; try discriminate; try congruence. destruct (hashable k); discriminate. }
    assert (I5 : forall k (m : omap K V), gomap_get keq hashable k (index m) <> Err) by (intros k m0; unfold gomap_get; destruct (hashable k); discriminate).
    destruct c as [o| |]; [|discriminate..]. cbn [ConcSpec.answer].
    assert (G : step keq hashable m o <> Err); [|destruct (step keq hashable m o); cbn; congruence].
    destruct o as [k v|k [v|]|k v|k v|k|b|k|k|k| |j|k| ]; cbn [step put_if_not_nil]; unfold upd, ask, get, has; try discriminate.
    - specialize (I3 k v m). destruct (put keq hashable k v m); cbn; congruence.
    - specialize (I3 k v m). destruct (put keq hashable k v m); cbn; congruence.
    - unfold replace_or_put, has. pose proof (I5 k m). destruct (gomap_get keq hashable k (index m)) as [[x|]| |]; cbn; try congruence.
      + specialize (I4 k v m). destruct (replace_if_exists keq hashable k v m); cbn; congruence.
      + specialize (I3 k v m). destruct (put keq hashable k v m); cbn; congruence.
    - specialize (I4 k v m). destruct (replace_if_exists keq hashable k v m); cbn; congruence.
    - specialize (I2 k m). destruct (delete keq hashable k m); cbn; congruence.
    - specialize (I5 k m). destruct (gomap_get keq hashable k (index m)); cbn; congruence.
    - specialize (I5 k m). destruct (gomap_get keq hashable k (index m)); cbn; congruence.
    - specialize (I5 k m). destruct (gomap_get keq hashable k (index m)); cbn; congruence.
    - unfold at_. destruct (j <? 0)%Z; [discriminate|]. destruct (nth_error _ _); discriminate.
    - specialize (I1 k m). destruct (index_of keq hashable k m); cbn; congruence.
    - rewrite for_each_collect. discriminate.
  Qed.

  Lemma result_not_err {R} (p : client K V R) : forall m, result keq hashable m p <> Err.
  Proof.
    induction p as [r|c k IH]; intros m; cbn [result]; [discriminate|]. pose proof (answer_not_err m c). destruct (answer m c); cbn [bind]; [apply IH|congruence|discriminate].
  Qed.

  Theorem readers {R} s m (ps : list (client K V R)) : holds s m -> Forall reader ps -> forall schedule,
    let st := play schedule (s, map compile ps) in
    fst st = s /\ ~ race (snd st) /\
    (forall i r, nth_error (snd st) i = Some (Ret r) -> exists p, nth_error ps i = Some p /\ result keq hashable m p = Ok r) /\
    (forall i, nth_error (snd st) i = Some Fail -> exists p, nth_error ps i = Some p /\ result keq hashable m p = Panic).
  Proof.
    intros H Hr schedule st. assert (Q : Forall quiet (map compile ps)) by (rewrite Forall_map; eapply Forall_impl; [|exact Hr]; intros; apply quiet_reader; assumption).
    destruct (quiet_play (map compile ps) s Q schedule) as [E1 E2]. fold st in E1, E2.
    assert (T : forall i q, nth_error (snd st) i = Some q -> quiet q /\ exists p, nth_error ps i = Some p /\ alone q s = alone (compile p) s).
    { intros i q Eq. rewrite E2, nth_error_map in Eq. destruct (nth_error ps i) as [p|] eqn:Ep; cbn in Eq; [|discriminate Eq]. injection Eq as <-.
      assert (Qp : quiet (compile p)) by (apply quiet_reader; rewrite Forall_forall in Hr; apply Hr; eapply nth_error_In; exact Ep).
      destruct (advance_quiet (count_occ Nat.eq_dec schedule i) _ s Qp). split; [assumption|]. exists p. auto. }
    split; [exact E1|]. split; [|split].
    - intros (i & j & X & Y & a & b & f & g & _ & Ei & Ej & _ & _ & W). apply T in Ei as [Qi _]. apply T in Ej as [Qj _].
      destruct Qi as [Wi _]. destruct Qj as [Wj _]. destruct W; congruence.
    - intros i r Ei. apply T in Ei as [_ [p [Ep Ea]]]. exists p. split; [exact Ep|]. pose proof (compile_alone p s m H) as C.
      cbn [Conc.alone] in Ea. destruct (result keq hashable m p) as [r'| |]; destruct C as [s' C]; rewrite C in Ea; congruence.
    - intros i Ei. apply T in Ei as [_ [p [Ep Ea]]]. exists p. split; [exact Ep|]. pose proof (compile_alone p s m H) as C.
      cbn [Conc.alone] in Ea. pose proof (result_not_err p m). destruct (result keq hashable m p) as [r'| |]; destruct C as [s' C]; rewrite C in Ea; congruence.
  Qed.

  (** Readers end: there is a number of turns after which each has its result, whatever the schedule. *)
  Theorem readers_end {R} s m (ps : list (client K V R)) : holds s m -> Forall reader ps -> exists n, forall schedule i p,
    (n <= count_occ Nat.eq_dec schedule i)%nat -> nth_error ps i = Some p ->
    nth_error (snd (play schedule (s, map compile ps))) i = Some (match result keq hashable m p with Ok r => Ret r | _ => Fail end).
  Proof.
    intros H Hr. assert (Q : Forall quiet (map compile ps)) by (rewrite Forall_map; eapply Forall_impl; [|exact Hr]; intros; apply quiet_reader; assumption).
    exists (list_max (map (fun p => cost (compile p) s) ps)). intros schedule i p Hn Ep.
    destruct (quiet_play (map compile ps) s Q schedule) as [_ E2]. rewrite E2, nth_error_map, Ep. cbn [option_map]. f_equal.
    assert (Qp : quiet (compile p)) by (apply quiet_reader; rewrite Forall_forall in Hr; apply Hr; eapply nth_error_In; exact Ep).
    assert (L : (cost (compile p) s <= list_max (map (fun p => cost (compile p) s) ps))%nat).
    { pose proof (list_max_le (map (fun p => cost (compile p) s) ps) (list_max (map (fun p => cost (compile p) s) ps))) as [L _]. specialize (L (Nat.le_refl _)).
      rewrite Forall_map, Forall_forall in L. apply L. eapply nth_error_In. exact Ep. }
    rewrite advance_cost; [|exact Qp|lia]. pose proof (compile_alone p s m H) as C.
    destruct (result keq hashable m p); destruct C as [s' C]; rewrite C; reflexivity.
  Qed.

  (** ** With a lock *)

  Lemma happened_app h1 : forall h2 (m m1 m2 : omap K V), happened keq hashable m h1 m1 -> happened keq hashable m1 h2 m2 -> happened keq hashable m (h1 ++ h2) m2.
  Proof.
    induction h1 as [|[[i c] x] h1 IH]; intros h2 m m1 m2 H1 H2; cbn in *; [subst; exact H2|]. destruct H1 as [m3 [E H1]]. exists m3. split; [exact E|]. eapply IH; eassumption.
  Qed.

  Lemma follows_app {R} i h1 : forall h2 (p p1 p2 : client K V R), follows i h1 p p1 -> follows i h2 p1 p2 -> follows i (h1 ++ h2) p p2.
  Proof.
    induction h1 as [|[[j c] x] h1 IH]; intros h2 p p1 p2 H1 H2; cbn in *; [subst; exact H2|]. destruct (j =? i)%nat.
    - destruct H1 as [k [E H1]]. exists k. split; [exact E|]. eapply IH; eassumption.
    - eapply IH; eassumption.
  Qed.

  Lemma follows_other {R} i j c x h (p p' : client K V R) : j <> i -> follows i h p p' -> follows i (h ++ [(j, c, x)]) p p'.
  Proof. intros N H. eapply follows_app; [exact H|]. cbn. apply Nat.eqb_neq in N. rewrite N. reflexivity. Qed.

  (** What a goroutine is doing, after the history [h]. *)
  Definition stands {R} (m : omap K V) (h : list (event K V)) (i : nat) (p : client K V R) (t : locked K V R) : Prop :=
    match t with
    | Wants q => follows i h p q
    | Holds _ k => exists c, follows i h p (Call c k)
    | Panicked => exists h1 h2 m1 c k, h = h1 ++ h2 /\ happened keq hashable m h1 m1 /\ follows i h p (Call c k) /\ answer m1 c = Panic
    end.

  Definition inside {R} (t : locked K V R) : Prop := match t with Holds _ _ => True | _ => False end.

  Definition lock_inv {R} (m : omap K V) (ps : list (client K V R)) (w : world K V R) (h : list (event K V)) (m' : omap K V) : Prop :=
    happened keq hashable m h m' /\ List.length (w_threads w) = List.length ps /\
    (forall i p t, nth_error ps i = Some p -> nth_error (w_threads w) i = Some t -> stands m h i p t) /\
    (forall i t, nth_error (w_threads w) i = Some t -> inside t -> w_owner w = Some i) /\
    match w_owner w with
    | None => holds (w_mem w) m'
    | Some i => exists p c q k s0, nth_error ps i = Some p /\ nth_error (w_threads w) i = Some (Holds q k) /\ follows i h p (Call c k) /\
        holds s0 m' /\ alone q (w_mem w) = alone (method c) s0
    end.

  Lemma stands_other {R} m h i j c x (p : client K V R) t : j <> i -> stands m h i p t -> stands m (h ++ [(j, c, x)]) i p t.
  Proof.
    intros N. destruct t as [q|q k|]; cbn [stands].
    - apply follows_other. exact N.
    - intros [c' H]. exists c'. apply follows_other; assumption.
    - intros (h1 & h2 & m1 & c' & k & -> & H1 & H2 & H3). exists h1, (h2 ++ [(j, c, x)]), m1, c', k. rewrite app_assoc. repeat split; try assumption. apply follows_other; assumption.
  Qed.

  Lemma lock_step {R} m (ps : list (client K V R)) w h m' i : lock_inv m ps w h m' ->
    exists h' m2, lock_inv m ps (lturn keq hashable zero grow w i) h' m2.
  Proof.
    intros Inv. pose proof Inv as (Hh & Hl & Hs & Ho & Hm). unfold lturn.
    destruct (nth_error (w_threads w) i) as [t|] eqn:Et; [|exists h, m'; exact Inv].
    assert (Ep : exists p, nth_error ps i = Some p).
    { destruct (nth_error ps i) eqn:E; [eauto|]. apply nth_error_None in E. assert (nth_error (w_threads w) i <> None) by congruence. apply nth_error_Some in H. lia. }
    destruct Ep as [p Ep]. pose proof (Hs i p t Ep Et) as Si.
    assert (Get : forall x j, nth_error (set_at i x (w_threads w)) j = if (i =? j)%nat then Some x else nth_error (w_threads w) j).
    { intros x j. rewrite nth_error_set_at. destruct (Nat.eqb_spec i j) as [<-|]; [rewrite Et|]; reflexivity. }
    destruct t as [[r|c k]|q k|]; try (exists h, m'; exact Inv).
    - (* taking the mutex *)
      destruct (w_owner w) as [j|] eqn:Eo; [exists h, m'; exact Inv|]. exists h, m'. unfold lock_inv. cbn [w_mem w_owner w_threads].
      split; [exact Hh|]. split; [rewrite set_at_length; exact Hl|]. split; [|split].
      + intros j p' t' Epj Etj. rewrite Get in Etj. destruct (Nat.eqb_spec i j) as [<-|N]; [|eapply Hs; eassumption].
        injection Etj as <-. rewrite Ep in Epj. injection Epj as <-. exists c. exact Si.
      + intros j t' Etj In. rewrite Get in Etj. destruct (Nat.eqb_spec i j) as [<-|N]; [reflexivity|]. specialize (Ho j t' Etj In). discriminate Ho.
      + exists p, c, (method c), k, (w_mem w). rewrite Get, Nat.eqb_refl. auto.
    - pose proof (Ho i _ Et I) as Eo. rewrite Eo in Hm. destruct Hm as (p' & c & q' & k' & s0 & Ep' & Et' & Fo & H0 & Al).
      rewrite Ep in Ep'. injection Ep' as <-. rewrite Et in Et'. injection Et' as <- <-.
      assert (Others : forall x h', (forall j p0 t0, i <> j -> nth_error ps j = Some p0 -> nth_error (w_threads w) j = Some t0 -> stands m h' j p0 t0) ->
        stands m h' i p x -> forall j p0 t0, nth_error ps j = Some p0 -> nth_error (set_at i x (w_threads w)) j = Some t0 -> stands m h' j p0 t0).
      { intros x h' H1 H2 j p0 t0 Epj Etj. rewrite Get in Etj. destruct (Nat.eqb_spec i j) as [<-|N]; [|eapply H1; eassumption].
        injection Etj as <-. rewrite Ep in Epj. injection Epj as <-. exact H2. }
      pose proof (method_does c s0 m' H0) as D. unfold does in D. destruct q as [x| |X a f].
      + (* the call has ended *)
        cbn [Conc.alone] in Al. destruct (answer m' c) as [[m2 x']| |] eqn:Ea; [|rewrite D in Al; discriminate Al..].
        destruct D as [s' [D1 D2]]. rewrite D1 in Al. injection Al as <- <-.
        exists (h ++ [(i, c, x)]), m2. unfold lock_inv. cbn [w_mem w_owner w_threads].
        split; [eapply happened_app; [exact Hh|]; cbn; exists m2; auto|]. split; [rewrite set_at_length; exact Hl|]. split; [|split; [|exact D2]].
        * apply Others; [intros j p0 t0 N Epj Etj; apply stands_other; [exact N|eapply Hs; eassumption]|]. cbn [stands]. eapply follows_app; [exact Fo|].
          cbn. rewrite Nat.eqb_refl. exists k. auto.
        * intros j t' Etj In. rewrite Get in Etj. destruct (Nat.eqb_spec i j) as [<-|N]; [injection Etj as <-; destruct In|].
          specialize (Ho j t' Etj In). rewrite Eo in Ho. injection Ho as <-. congruence.
      + (* the call has panicked *)
        cbn [Conc.alone] in Al. assert (Ea : answer m' c = Panic /\ w_mem w = s0).
        { pose proof (answer_not_err m' c). destruct (answer m' c) as [[m2 x']| |] eqn:Ea; [destruct D as [s' [D1 _]]; rewrite D1 in Al; discriminate Al|congruence|].
          rewrite D in Al. injection Al as ->. auto. }
        destruct Ea as [Ea Em]. exists h, m'. unfold lock_inv. cbn [w_mem w_owner w_threads].
        split; [exact Hh|]. split; [rewrite set_at_length; exact Hl|]. split; [|split; [|rewrite Em; exact H0]].
        * apply Others; [intros; eapply Hs; eassumption|]. exists h, [], m', c, k. rewrite app_nil_r. auto.
        * intros j t' Etj In. rewrite Get in Etj. destruct (Nat.eqb_spec i j) as [<-|N]; [injection Etj as <-; destruct In|].
          specialize (Ho j t' Etj In). rewrite Eo in Ho. injection Ho as <-. congruence.
      + (* an access *)
        cbn [Conc.alone] in Al. destruct (access a (w_mem w)) as [s' x]. exists h, m'. unfold lock_inv. cbn [w_mem w_owner w_threads].
        split; [exact Hh|]. split; [rewrite set_at_length; exact Hl|]. split; [|split].
        * apply Others; [intros; eapply Hs; eassumption|]. exact Si.
        * intros j t' Etj In. rewrite Get in Etj. destruct (Nat.eqb_spec i j) as [<-|N]; [exact Eo|]. eapply Ho; eassumption.
        * rewrite Eo. exists p, c, (f x), k, s0. rewrite Get, Nat.eqb_refl. auto.
  Qed.

  Theorem lock_all {R} s m (ps : list (client K V R)) : holds s m -> forall schedule,
    exists h m', lock_inv m ps (lplay keq hashable zero grow schedule (mkWorld s None (map Wants ps))) h m'.
  Proof.
    intros H schedule. unfold lplay. assert (I0 : lock_inv m ps (mkWorld s None (map Wants ps)) [] m).
    { unfold lock_inv. cbn [w_mem w_owner w_threads]. split; [reflexivity|]. split; [apply map_length|]. split; [|split; [|exact H]].
      - intros i p t E1 E2. rewrite nth_error_map, E1 in E2. injection E2 as <-. reflexivity.
      - intros i t E1 E2. rewrite nth_error_map in E1. destruct (nth_error ps i); [injection E1 as <-; destruct E2|discriminate E1]. }
    revert I0. generalize (mkWorld s None (map Wants ps)) ([] : list (event K V)). intros w h.
    assert (G : forall schedule w h m', lock_inv m ps w h m' -> exists h2 m2, lock_inv m ps (fold_left (lturn keq hashable zero grow) schedule w) h2 m2).
    { clear. induction schedule as [|i schedule IH]; intros w h m' Inv; [eauto|]. cbn [fold_left]. destruct (lock_step m ps w h m' i Inv) as [h' [m2 Inv']]. eapply IH. exact Inv'. }
    intros I0. eapply G. exact I0.
  Qed.
End Proofs.

(** The invariant in the words of the theorem. *)
Lemma lock_history {K V R} keq hashable zero grow s (m : omap K V) (ps : list (client K V R)) : holds s m -> forall schedule,
  let w := lplay keq hashable zero grow schedule (mkWorld s None (map Wants ps)) in
  exists h m', happened keq hashable m h m' /\
    match w_owner w with Some i => exists q k, nth_error (w_threads w) i = Some (Holds q k) | None => holds (w_mem w) m' end /\
    forall i p, nth_error ps i = Some p -> exists t, nth_error (w_threads w) i = Some t /\
      match t with
      | Wants q => follows i h p q
      | Holds _ k => exists c, follows i h p (Call c k)
      | Panicked => exists h1 h2 m1 c k, h = h1 ++ h2 /\ happened keq hashable m h1 m1 /\ follows i h p (Call c k) /\ answer keq hashable m1 c = Panic
      end.
Proof.
  intros H schedule w. destruct (lock_all keq hashable zero grow s m ps H schedule) as (h & m' & Hh & Hl & Hs & _ & Hm). fold w in Hl, Hs, Hm. exists h, m'.
  split; [exact Hh|]. split.
  - destruct (w_owner w); [|exact Hm]. destruct Hm as (p & c & q & k & s0 & _ & Et & _). eauto.
  - intros i p Ep. destruct (nth_error (w_threads w) i) as [t|] eqn:Et.
    + exists t. split; [reflexivity|]. exact (Hs i p t Ep Et).
    + apply nth_error_None in Et. assert (X : nth_error ps i <> None) by congruence. apply nth_error_Some in X. lia.
Qed.

(** ** String-keyed maps *)
From Verif Require Import OMapSpec OMapProofs MapFacts.

(** A program without At. *)
Inductive no_at {V R} : client string V R -> Prop :=
| no_at_done r : no_at (Done r)
| no_at_call c k : (forall j, c <> COp (OAt j)) -> (forall x, no_at (k x)) -> no_at (Call c k).

Lemma answer_reachable {V} (m : omap string V) c m' x : sm_reachable m -> answer String.eqb any_hash m c = Ok (m', x) -> sm_reachable m'.
Proof.
  intros [ops Hr] E. destruct c as [o| |]; cbn in E; [|injection E as <- _; exists ops; exact Hr..].
  destruct (step String.eqb any_hash m o) as [[m1 r]| |] eqn:Es; cbn in E; try discriminate E. injection E as <- _. exists (ops ++ [o]).
  revert Hr. generalize (@new_map string V). induction ops as [|a ops IH]; intros m0 Hr; cbn in *.
  - injection Hr as ->. rewrite Es. reflexivity.
  - destruct (step String.eqb any_hash m0 a) as [y| |]; cbn in *; try discriminate Hr. apply IH. exact Hr.
Qed.

Lemma happened_reachable {V} h : forall (m m' : omap string V), sm_reachable m -> happened String.eqb any_hash m h m' -> sm_reachable m'.
Proof.
  induction h as [|[[i c] x] h IH]; intros m m' Hr H; cbn in H; [subst; exact Hr|]. destruct H as [m1 [E H]]. eapply IH; [|exact H]. eapply answer_reachable; eassumption.
Qed.

Lemma answer_no_panic {V} (m : omap string V) c : sm_reachable m -> (forall j, c <> COp (OAt j)) -> answer String.eqb any_hash m c <> Panic /\ answer String.eqb any_hash m c <> Err.
Proof.
  intros Hr N. destruct c as [o| |]; [|split; discriminate..]. cbn. destruct (sm_step_panic V m o Hr) as [P P'].
  destruct (step String.eqb any_hash m o); cbn; (split; [|congruence]); try discriminate. intros _. destruct (proj1 P eq_refl) as [j [-> _]]. apply (N j). reflexivity.
Qed.

Lemma result_no_panic {V R} (p : client string V R) : no_at p -> forall m, sm_reachable m -> exists r, result String.eqb any_hash m p = Ok r.
Proof.
  induction 1 as [r|c k N Hk IH]; intros m Hr; cbn [result]; [eauto|]. destruct (answer_no_panic m c Hr N).
  destruct (answer String.eqb any_hash m c) as [[m1 x]| |] eqn:E; cbn [bind fst snd]; try congruence. apply IH. eapply answer_reachable; eassumption.
Qed.

Lemma no_at_follows {V R} i h : forall (p q : client string V R), no_at p -> follows i h p q -> no_at q.
Proof.
  induction h as [|[[j c] x] h IH]; intros p q N H; cbn in H; [subst; exact N|]. destruct (j =? i)%nat; [|eapply IH; eassumption].
  destruct H as [k [-> H]]. inversion N; subst. eapply IH; [|exact H]. match goal with G : forall x, no_at (k x) |- _ => apply G end.
Qed.

Lemma lock_strings {V R} zero grow s (m : omap string V) (ps : list (client string V R)) : holds s m -> sm_reachable m -> Forall no_at ps -> forall schedule i,
  nth_error (w_threads (lplay String.eqb any_hash zero grow schedule (mkWorld s None (map Wants ps)))) i <> Some Panicked.
Proof.
  intros H Hr N schedule i E. destruct (lock_all String.eqb any_hash zero grow s m ps H schedule) as (h & m' & Hh & Hl & Hs & _).
  destruct (nth_error ps i) as [p|] eqn:Ep.
  - destruct (Hs i p _ Ep E) as (h1 & h2 & m1 & c & k & -> & H1 & H2 & H3). rewrite Forall_forall in N. apply nth_error_In in Ep. apply N in Ep.
    pose proof (no_at_follows _ _ _ _ Ep H2) as Nc. inversion Nc as [|? ? Nc1 Nc2]; subst.
    exact (proj1 (answer_no_panic m1 c (happened_reachable _ _ _ Hr H1) Nc1) H3).
  - apply nth_error_None in Ep. assert (X : nth_error (w_threads (lplay String.eqb any_hash zero grow schedule (mkWorld s None (map Wants ps)))) i <> None) by congruence.
    apply nth_error_Some in X. lia.
Qed.

Lemma readers_strings {V R} zero grow s (m : omap string V) (ps : list (client string V R)) : holds s m -> sm_reachable m -> Forall reader ps -> Forall no_at ps ->
  exists n, forall schedule i p, (n <= count_occ Nat.eq_dec schedule i)%nat -> nth_error ps i = Some p ->
    exists r, result String.eqb any_hash m p = Ok r /\ nth_error (snd (play String.eqb zero grow schedule (s, map (compile String.eqb any_hash) ps))) i = Some (Ret r).
Proof.
  intros H Hr R1 N. destruct (readers_end String.eqb any_hash zero grow s m ps H R1) as [n E]. exists n. intros schedule i p Hn Ep.
  rewrite (E schedule i p Hn Ep). rewrite Forall_forall in N. destruct (result_no_panic p (N p (nth_error_In _ _ Ep)) m Hr) as [r Er]. exists r. rewrite Er. auto.
Qed.
