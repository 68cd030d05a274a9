(** C94: no method of a map looks at an entry twice. *)
From Coq Require Import SpecFloat.
From Verif Require Import Base Num OMap OMapSpec OMapProofs MapFacts Keys Looks.

(** For every map in any state, every key (also one that cannot be hashed or is not equal to itself) and every method: the call does what
    OMap.v says it does, and the positions of the entries it looks at are different from each other and in the map. *)
Theorem C94_once (K V : Type) (keq : K -> K -> bool) (hashable : K -> bool) (m : omap K V) (o : op K V) :
  snd (step_t K V keq hashable m o) = step keq hashable m o /\
  NoDup (fst (step_t K V keq hashable m o)) /\
  forall i, In i (fst (step_t K V keq hashable m o)) -> (i < len m)%nat.
Proof. split; [apply step_same|apply step_once]. Qed.
Print Assumptions C94_once.

(** Exactly which entries, for every map that a history leads to: [looked_at] is in Looks.v.  Looking up a key looks at no entry; IndexOf and
    the replacing methods look at the entries up to the one they want; removing an entry looks at all of them. *)
Theorem C94_strings (V : Type) (m : omap string V) (o : op string V) : sm_reachable m ->
  fst (step_t string V String.eqb any_hash m o) = looked_at string V String.eqb (entries m) o.
Proof.
  intros R. rewrite entries_ordered. apply step_exact; [apply sm_inv; exact R|apply skeys_good].
Qed.
Print Assumptions C94_strings.
Theorem C94_any (V : Type) (m : omap gkey V) (o : op gkey V) : am_reachable m -> op_proper o ->
  fst (step_t gkey V gkey_eqb gkey_hashable m o) = looked_at gkey V gkey_eqb (entries m) o.
Proof.
  intros (ops & P & R) H. rewrite entries_ordered.
  assert (G : forall o : op gkey V, op_proper o -> keys_good gkey_eqb gkey_hashable o).
  { intros o' Ho. unfold keys_good. eapply Forall_impl; [|exact Ho]. exact gkey_proper_good. }
  apply step_exact; [|apply G; exact H].
  apply (exec_inv gkey V gkey_eqb gkey_hashable gkey_eqb_sym gkey_eqb_trans new_map ops m); [apply inv_new| |exact R].
  eapply Forall_impl; [|exact P]. exact G.
Qed.
Print Assumptions C94_any.

(** A program that makes [n] calls on a new map looks at an entry at most n*n/4 times, whatever the calls are. *)
Theorem C94_history (K V : Type) (keq : K -> K -> bool) (hashable : K -> bool) (ops : list (op K V)) :
  (4 * total (looks K V keq hashable new_map ops) <= List.length ops * List.length ops)%nat.
Proof. apply looks_quarter. Qed.
Print Assumptions C94_history.

(** The bound is reached: put as many different keys as you like into a new map, and go through it as often as it has entries. *)
Lemma put_new_keys (V : Type) (v : V) ks : forall m : omap string V, sm_reachable m -> NoDup (map fst (entries m) ++ ks) ->
  exists m', sm_exec m (map (fun k => OPut k v) ks) = Ok m' /\ len m' = (len m + List.length ks)%nat /\ sm_reachable m' /\
    forall t, total (looks string V String.eqb any_hash m (map (fun k => OPut k v) ks ++ t)) = total (looks string V String.eqb any_hash m' t).
Proof.
  induction ks as [|k ks IH]; intros m R N; [exists m; cbn; repeat split; [lia|exact R]|].
  destruct (sm_put_spec V m k v R) as (m1 & P & _).
  assert (R1 : sm_reachable m1) by (destruct R as [ops H]; exists (ops ++ [OPut k v]); rewrite exec_app, H; simpl; rewrite P; reflexivity).
  pose proof (put_ok string V String.eqb any_hash seq_sym seq_trans k v m (sm_inv V m R) (sgood k)) as (m2 & P2 & _ & O & _).
  assert (m2 = m1) as -> by congruence.
  assert (A : shas String.eqb k (ordered m) = false).
  { rewrite entries_ordered in N. apply NoDup_remove_2 in N. destruct (shas String.eqb k (ordered m)) eqn:E; [|reflexivity]. exfalso. apply N.
    apply in_or_app. left. unfold shas in E. apply existsb_exists in E as (e & I & Q). apply String.eqb_eq in Q. subst k. apply in_map. exact I. }
  assert (O1 : ordered m1 = ordered m ++ [(k, v)]).
  { rewrite O. unfold sput. f_equal. apply (sdelete_none string V). apply Forall_forall. intros e I. destruct (String.eqb (fst e) k) eqn:E; [|reflexivity].
    rewrite <- A. symmetry. unfold shas. apply existsb_exists. exists e. auto. }
  destruct (IH m1 R1) as (m' & X & L & R' & T).
  { rewrite entries_ordered in N |- *. rewrite O1, map_app. cbn. rewrite <- app_assoc. exact N. }
  exists m'. split; [simpl; rewrite P; exact X|]. split; [rewrite L; unfold len; rewrite O1, app_length; cbn; lia|]. split; [exact R'|].
  intros t. cbn [map app looks]. rewrite step_same. cbn [step]. rewrite P. cbn [upd bind fst].
  unfold total. cbn [map list_sum fold_right]. rewrite (C94_strings V m (OPut k v) R). cbn [looked_at]. unfold all_if. rewrite entries_ordered, A.
  cbn [List.length Nat.add]. apply T.
Qed.

Theorem C94_reached (V : Type) (v : V) (ks : list string) : NoDup ks ->
  let ops := map (fun k => OPut k v) ks ++ repeat OForEach (List.length ks) in
  (4 * total (looks string V String.eqb any_hash new_map ops) = List.length ops * List.length ops)%nat.
Proof.
  intros N ops. destruct (put_new_keys V v ks new_map (ex_intro _ [] eq_refl) N) as (m' & _ & L & R & T). unfold ops. rewrite T.
  assert (F : forall n, total (looks string V String.eqb any_hash m' (repeat OForEach n)) = (n * len m')%nat).
  { induction n as [|n IHn]; [reflexivity|]. cbn [repeat looks]. rewrite step_same. cbn [step]. rewrite for_each_collect. cbn [bind fst snd].
    unfold total in *. cbn [map list_sum fold_right]. rewrite (C94_strings V m' OForEach R). cbn [looked_at]. rewrite seq_length, entries_ordered.
    unfold list_sum in IHn. rewrite IHn. reflexivity. }
  rewrite F, L, app_length, repeat_length, map_length. cbn [len ordered new_map List.length]. nia.
Qed.
Print Assumptions C94_reached.

Example C94_case : exists m : omap string nat, sm_exec new_map [OPut "a" 1; OPut "b" 2; OPut "c" 3] = Ok m /\
  fst (step_t string nat String.eqb any_hash m (OIndexOf "b")) = [0; 1] /\
  fst (step_t string nat String.eqb any_hash m (ODelete "b")) = [0; 1; 2] /\
  fst (step_t string nat String.eqb any_hash m (OReplaceOrPut "a" 7)) = [0] /\
  fst (step_t string nat String.eqb any_hash m (OPut "d" 7)) = [] /\
  fst (step_t string nat String.eqb any_hash m (OGet "c")) = [].
Proof. eexists. split; [reflexivity|]. repeat split; reflexivity. Qed.
Example C94_any_case : op_proper (OPut (KInt 3) 1) /\ am_reachable (@new_map gkey nat) /\
  fst (step_t gkey nat gkey_eqb gkey_hashable new_map (OPut (KFloat S754_nan) 1)) = [].
Proof. split; [repeat constructor|]. split; [exists []; split; [constructor|reflexivity]|reflexivity]. Qed.
