(** Property C98: the work of saving. *)
From Coq Require Import SpecFloat.
From Verif Require Import Base Num OMap OMapSpec Keys Yaml Values Assign Formats Meta Out Xml Example DataType Marshal Doc Api Library
  TypeFacts Fields FacetSpec Segs WriteSpec ApiSpec ApiProofs ApiWrite LibRound BuildSpec Cost CostHigh SaveCost SaveCostProofs SaveCostHigh.
From Verif Require WriteExact.
Local Open Scope nat_scope.

(** Some float conversion, for the examples. *)
#[local] Instance toy : FloatIO := {
  float_of := fun _ s => if String.eqb s "0.5" then Some (S754_finite false 1 (-1)) else None;
  float_text := fun _ => (TFloat, "0.5")
}.
Local Notation s_ := str_node.
Local Notation m_ := (Map TMap).

(** What is counted (SaveCost.v) is what the code does: carrying out the calls gives what saving gives, for every object. *)
Theorem C98_counted (F : FloatIO) : (forall e, result (ex_work e) = ex_to_yaml e) /\ (forall d, result (type_work d) = to_yaml d) /\
  (forall a, result (api_work a) = api_marshal a) /\ (forall l, result (lib_work l) = lib_marshal l).
Proof. repeat split; [exact ex_result|exact type_result|exact api_result|exact lib_result]. Qed.
Print Assumptions C98_counted.

(** C98 as stated: there is a number c such that saving any definition, API document or library, however made, looks no more than c times at
    something per thing in it.  It is false of all three: whatever c is, there is one that takes more and is saved. *)
Theorem C98_refuted (F : FloatIO) (c : nat) :
  (exists d n, to_yaml d = Ok n /\ c * size (type_work d) < looks (type_work d)) /\
  (exists a n, api_marshal a = Ok n /\ c * size (api_work a) < looks (api_work a)) /\
  (exists l n, lib_marshal l = Ok n /\ c * size (lib_work l) < looks (lib_work l)).
Proof.
  assert (OK : forall s, forall l : list (gkey * work), (forall e, In e l -> (exists n, key_node (fst e) = Ok n) /\ exists n, result (snd e) = Ok n) -> exists n, result (Puts s l) = Ok n).
  { intros s l H. cbn [result]. rewrite puts_outs, WriteExact.puts_nil.
    assert (G : forall e, In e (WriteExact.last_puts (outs l)) -> (exists n, key_node (fst e) = Ok n) /\ exists n, snd e = Ok n).
    { intros e I. apply WriteExact.last_in in I. apply in_map_iff in I as [x [<- I]]. exact (H x I). }
    assert (O : exists n, out_to_yaml (WriteExact.last_puts (outs l)) = Ok n).
    { revert G. generalize (WriteExact.last_puts (outs l)) as o. intros o G. unfold out_to_yaml, map_to_yaml. cbn [oord ents]. assert (M : exists r, map_res (entry_node key_node (fun r : res node => r)) o = Ok r).
      { induction o as [|e o IH]; [eexists; reflexivity|]. destruct (G e (or_introl eq_refl)) as [[k1 K1] [v1 V1]]. destruct IH as [r R]; [intros x I; apply G; right; exact I|]. cbn. unfold entry_node at 1. rewrite K1, V1. cbn. rewrite R. eexists. reflexivity. }
      destruct M as [r ->]. eexists. reflexivity. }
    destruct s; [|exact O]. unfold short_or_full. destruct (is_short _); [|exact O]. destruct (sget _ _ _) as [r|] eqn:E; [|eexists; reflexivity].
    assert (I : exists k, In (k, r) (WriteExact.last_puts (outs l))).
    { unfold sget in E. destruct (find _ _) as [[k v]|] eqn:Fd; [|discriminate E]. injection E as ->. apply find_some in Fd as [I _]. eauto. }
    destruct I as [k I]. exact (proj2 (G _ I)). }
  assert (EX : forall k e, In e (extra_puts k) -> (exists n, key_node (fst e) = Ok n) /\ exists n, result (snd e) = Ok n).
  { intros k e I. unfold extra_puts, put_each, shared_extra in I. cbn [ents] in I. rewrite map_map in I. apply in_map_iff in I as [x [<- _]]. split; eexists; reflexivity. }
  assert (AN : forall k e, In e (ann_puts k) -> (exists n, key_node (fst e) = Ok n) /\ exists n, result (snd e) = Ok n).
  { intros k e I. unfold ann_puts, put_each, shared_anns in I. cbn [ents] in I. rewrite map_map in I. apply in_map_iff in I as [x [<- _]]. split; eexists; reflexivity. }
  set (k := 4 * c + 4). split; [|split].
  - destruct (type_high k) as [H S1]. destruct (OK true (put KeyType (one (str_node "string")) ++ extra_puts k ++ ann_puts k ++ [])) as [n R].
    { intros e I. repeat (apply in_app_or in I as [I|I]); [destruct I as [<-|[]]; split; eexists; reflexivity|exact (EX k e I)|exact (AN k e I)|destruct I]. }
    exists (shared_type k), n. split; [rewrite <- type_result, type_shared; exact R|]. rewrite S1. unfold k in *. nia.
  - destruct (api_high k) as [H S1]. destruct (OK false (put KeyTitle (one (str_node "")) ++ ann_puts k ++ extra_puts k ++ [])) as [n R].
    { intros e I. repeat (apply in_app_or in I as [I|I]); [destruct I as [<-|[]]; split; eexists; reflexivity|exact (AN k e I)|exact (EX k e I)|destruct I]. }
    exists (shared_api k), n. split; [rewrite <- api_result, api_shared; exact R|]. rewrite S1. unfold k in *. nia.
  - destruct (lib_high k) as [H S1]. destruct (OK false ([] ++ ann_puts k ++ extra_puts k ++ [])) as [n R].
    { intros e I. repeat (apply in_app_or in I as [I|I]); [destruct I|exact (AN k e I)|exact (EX k e I)|destruct I]. }
    exists (shared_lib k), n. split; [rewrite <- lib_result, lib_shared; exact R|]. rewrite S1. unfold k in *. nia.
Qed.
Print Assumptions C98_refuted.
(** the objects have annotations and extra facets with the same names *)
Example C98_refuted_case : to_yaml (shared_type 2) = Ok (m_ [(s_ "type", s_ "string"); (s_ "/", Seq TOMap []); (s_ "/a", Seq TOMap [])]).
Proof. vm_compute. reflexivity. Qed.
Example C98_refuted_growth : map (fun k => (size (type_work (shared_type k)), looks (type_work (shared_type k)))) [2; 20; 40] = [(11, 14); (83, 482); (163, 1762)].
Proof. vm_compute. reflexivity. Qed.

(** What is left of it.  Nothing takes more than the square of what there is. *)
Theorem C98_square_partial (F : FloatIO) : (forall d, looks (type_work d) <= size (type_work d) * size (type_work d)) /\
  (forall a, looks (api_work a) <= size (api_work a) * size (api_work a)) /\ (forall l, looks (lib_work l) <= size (lib_work l) * size (lib_work l)).
Proof. repeat split; intros; apply looks_square. Qed.
Print Assumptions C98_square_partial.

(** Where no object has, at any depth, two things to write under one key, two looks at each are enough; and every entry and item is looked at. *)
Theorem C98_clear_partial (F : FloatIO) : (forall d, clear (type_work d) -> looks (type_work d) <= 2 * size (type_work d) /\ size (type_work d) <= 1 + 2 * looks (type_work d)) /\
  (forall a, clear (api_work a) -> looks (api_work a) <= 2 * size (api_work a) /\ size (api_work a) <= 1 + 2 * looks (api_work a)) /\
  (forall l, clear (lib_work l) -> looks (lib_work l) <= 2 * size (lib_work l) /\ size (lib_work l) <= 1 + 2 * looks (lib_work l)).
Proof. split; [|split]; intros x C; (split; [apply looks_clear|apply looks_clear_low]; assumption). Qed.
Print Assumptions C98_clear_partial.

(** So of everything that was loaded, if no definition in it, at any depth, has an annotation with the name of an extra facet: no document whose keys are strings has
    one.  For a library, neither must the annotations (among them its annotation types, C53) have the names of others. *)
Theorem C98_loaded_partial (F : FloatIO) n :
  (forall d, hat n = Ok d -> (forall t, anywhere_in t d -> no_clash t) -> looks (type_work d) <= 2 * size (type_work d)) /\
  (forall a, api_unmarshal n new_api = Ok a -> (forall k d t, In (k, d) (ents (a_types a)) -> anywhere_in t d -> no_clash t) -> looks (api_work a) <= 2 * size (api_work a)) /\
  (forall l, lib_unmarshal n new_library = Ok l -> lib_tidy l -> (forall k d t, In (k, d) (ents (l_types l)) -> anywhere_in t d -> no_clash t) -> looks (lib_work l) <= 2 * size (lib_work l)).
Proof.
  split; [|split].
  - intros d H N. apply looks_clear. exact (loaded_clear n d H N).
  - intros a H N. apply looks_clear. apply api_clear.
    + apply api_tidy_apart. destruct n as [| |t l]; try discriminate H. apply api_read_iff in H as [_ H]. exact (api_read_tidy l a H).
    + intros k d I. destruct (api_types_loaded n a H k d I) as [n' Hd]. apply (loaded_clear n' d Hd). intros t. exact (N k d t I).
  - intros l H T N. apply looks_clear. apply lib_clear.
    + apply lib_tidy_apart. exact T.
    + intros k d I. destruct (lib_types_loaded n l H k d I) as [n' Hd]. apply (loaded_clear n' d Hd). intros t. exact (N k d t I).
Qed.
Print Assumptions C98_loaded_partial.
Definition loaded_doc : node :=
  m_ [(s_ "title", s_ "T"); (s_ "(a)", m_ [(s_ "x", s_ "y")]); (s_ "b", s_ "c");
      (s_ "types", m_ [(s_ "m", m_ [(s_ "type", s_ "object"); (s_ "(a)", m_ [(s_ "x", s_ "y")]); (s_ "extra", s_ "e");
                                    (s_ "properties", m_ [(s_ "p", m_ [(s_ "type", s_ "integer"); (s_ "minimum", Scal TInt "1")])])])])].
Lemma closed_all (good : dtype -> Prop) : (forall t u, good t -> inside u t -> good u) -> forall t d, anywhere_in t d -> good d -> good t.
Proof. intros H t d A. induction A as [x y I|x|x y z _ IH1 _ IH2]; intros G; [exact (H y x G I)|exact G|auto]. Qed.
Example C98_loaded_case : exists a, api_unmarshal loaded_doc new_api = Ok a /\ (forall k d t, In (k, d) (ents (a_types a)) -> anywhere_in t d -> no_clash t) /\ looks (api_work a) = 24 /\ size (api_work a) = 29.
Proof.
  eexists. split; [vm_compute; reflexivity|]. split; [|split; vm_compute; reflexivity]. intros k d t I A. cbn in I. destruct I as [I|[]]. injection I as _ <-.
  revert t A. match goal with |- forall t, anywhere_in t ?d -> _ => set (d0 := d) end. match eval cbv in (getf FProps d0) with Some (VTypes (mkMap [(_, ?p)] _)) => set (p0 := p) end.
  cut (forall t, anywhere_in t d0 -> t = d0 \/ t = p0).
  { intros C t A. destruct (C t A) as [->| ->]; intros s X Y; cbn in X, Y; intuition congruence. }
  intros t A. revert A. intros A. apply (closed_all (fun t => t = d0 \/ t = p0)) with (d := d0); [|exact A|left; reflexivity].
  intros x u [->| ->] J; inversion J as [y G E|y m k1 G J1 E|y m k1 m' k2 G J1 J2 E]; subst y; cbn in G; try discriminate G; injection G as G; try subst m; cbn in J1; try contradiction.
  destruct J1 as [J1|[]]. injection J1 as _ <-. right. reflexivity.
Qed.
