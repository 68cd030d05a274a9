(** Properties C63 and C64: definitions that are used in several places, and definitions that contain themselves. *)
From Coq Require Import SpecFloat Relations Lia.
From Verif Require Import Base Num OMap OMapSpec Keys Yaml Values Assign Formats Meta Out Xml Example DataType Marshal Doc Api Library
  TypeFacts Fields Setters OrderProofs PathProofs Heap HeapSpec HeapProofs HeapEdit HeapLoop HeapMap HeapSet HeapWhole.

(** Some float conversion, for the examples. *)
#[local] Instance toy : FloatIO := {
  float_of := fun _ s => if String.eqb s "0.5" then Some (S754_finite false 1 (-1)) else None;
  float_text := fun _ => (TFloat, "0.5")
}.

Local Notation s_ := str_node.

(** ** C63 *)

(** Two paths of getters that end at one object answer the same definition. *)
Theorem C63_places_agree w ps qs n m r1 r2 d1 d2 r : tree n w r1 = Some d1 -> tree m w r2 = Some d2 ->
  ref_walk w ps r1 = Some r -> ref_walk w qs r2 = Some r -> exists d, walk ps d1 = Some d /\ walk qs d2 = Some d.
Proof.
  intros T1 T2 P Q. destruct (walk_tree ps n w r1 d1 r T1 P) as [e1 [W1 [E1 _]]]. destruct (walk_tree qs m w r2 d2 r T2 Q) as [e2 [W2 [E2 _]]].
  exists e1. split; [exact W1|]. rewrite (tree_one n m w r e1 e2 E1 E2). exact W2.
Qed.
Print Assumptions C63_places_agree.

(** A setter through a reference is the setter on the definition, at the end of every path that leads to the object. *)
Theorem C63_setter_in_every_place w h r op : same_call w h r op -> forall ps n r0 d, tree n w r0 = Some d -> ref_walk w ps r0 = Some r ->
  exists d' n' d2, walk ps d = Some d' /\ tree n' (h_apply h w) r0 = Some d2 /\ walk ps d2 = Some (type_apply op d').
Proof. exact (set_every_place w h r op). Qed.
Print Assumptions C63_setter_in_every_place.

(** A call changes nothing in a definition that does not contain the changed object, and nothing of what is written for it. *)
Theorem C63_nothing_else {F : FloatIO} h w r : complete w (AType r) -> (forall a, changes h a -> ~ below w (AType r) a) ->
  forall n, tree n (h_apply h w) r = tree n w r /\ h_to_yaml n (h_apply h w) r = h_to_yaml n w r.
Proof. exact (nothing_else h w r). Qed.
Print Assumptions C63_nothing_else.

(** Properties().Put(k, t) shows in every definition that has this map. *)
Theorem C63_property_added w m mm k r1 n1 d1 : nth_error (w_maps w) m = Some mm -> tree n1 w r1 = Some d1 -> ~ below w (AType r1) (AMap m) ->
  forall r n d b x f c mn mx ad di dv, nth_error (w_types w) r = Some (HExt b x f c (HObject m mn mx ad di dv)) -> tree n w r = Some d ->
  exists n' d2, tree n' (h_apply (HMap m (put_entry k r1)) w) r = Some d2 /\ type_hop (Prop_ k) d2 = Some d1 /\
    forall k', k' <> k -> type_hop (Prop_ k') d2 = type_hop (Prop_ k') d.
Proof. exact (property_put w m mm k r1 n1 d1). Qed.
Print Assumptions C63_property_added.

(** New<Kind>Type: a new object with the values of Setters.v, sharing nothing. *)
Theorem C63_new_object k w : tree 1 (h_apply (HNewType k) w) (List.length (w_types w)) = Some (new_type k) /\
  forall a, below (h_apply (HNewType k) w) (AType (List.length (w_types w))) a -> ~ exists_in w a.
Proof. split; [exact (new_tree k w)|exact (new_shares_nothing k w)]. Qed.
Print Assumptions C63_new_object.

(** What is given to a setter or a map is kept as the object it is, not copied: later calls on it show. *)
Theorem C63_not_copied w r b x f c :
  (forall u mn mx it i, nth_error (w_types w) r = Some (HExt b x f c (HArray u mn mx it)) -> ref_walk (h_apply (HSetItems r (Some i)) w) [Items] r = Some i) /\
  (forall p mn mx ad di dv mm k i, nth_error (w_types w) r = Some (HExt b x f c (HObject p mn mx ad di dv)) -> nth_error (w_maps w) p = Some mm ->
    ref_walk (h_apply (HMap p (put_entry k i)) w) [Prop_ k] r = Some i) /\
  (forall p mn mx ad di dv m mm k i, nth_error (w_types w) r = Some (HExt b x f c (HObject p mn mx ad di dv)) -> nth_error (w_maps w) m = Some mm ->
    ref_walk (h_apply (HMap m (put_entry k i)) (h_apply (HSetProperties r (Some m)) w)) [Prop_ k] r = Some i).
Proof.
  split; [|split].
  - intros u mn mx it i H. cbn [h_apply]. rewrite H. cbn [ref_walk]. unfold ref_hop. cbn [put_type w_types]. rewrite (set_nth_same _ _ _ _ H). reflexivity.
  - intros p mn mx ad di dv mm k i H Hm. cbn [h_apply]. rewrite Hm. cbn [ref_walk]. unfold ref_hop. cbn [put_map w_types w_maps]. rewrite H, (set_nth_same _ _ _ _ Hm). cbn [obind put_entry ents].
    rewrite sget_sput, String.eqb_refl. reflexivity.
  - intros p mn mx ad di dv m mm k i H Hm. cbn [h_apply]. rewrite H. cbn [put_type w_maps]. rewrite Hm. cbn [ref_walk]. unfold ref_hop. cbn [put_type put_map w_types w_maps].
    rewrite (set_nth_same _ _ _ _ H), (set_nth_same _ _ _ _ Hm). cbn [obind put_entry ents]. rewrite sget_sput, String.eqb_refl. reflexivity.
Qed.
Print Assumptions C63_not_copied.

(** An object with two properties that are one string type, and an array of that same type. *)
Definition shared : world :=
  fold_left (fun w h => h_apply h w)
    [HNewType TyObject; HNewType TyString; HMap 0 (put_entry "a" 1); HMap 0 (put_entry "b" 1); HNewType TyArray; HSetItems 2 (Some 1)] no_objects.

Example C63_case :
  (exists d0 d2, tree 2 shared 0 = Some d0 /\ tree 2 shared 2 = Some d2) /\
  ref_walk shared [Prop_ "a"] 0 = Some 1 /\ ref_walk shared [Prop_ "b"] 0 = Some 1 /\ ref_walk shared [Items] 2 = Some 1 /\
  same_call shared (HSet 1 (TSetMinLength 3)) 1 (TSetMinLength 3) /\
  h_to_yaml 2 shared 0 = Ok (Map TMap [(s_ "type", s_ "object"); (s_ "properties", Map TMap [(s_ "a", s_ "string"); (s_ "b", s_ "string")])]) /\
  (let t := Map TMap [(s_ "type", s_ "string"); (s_ "minLength", Scal TInt "3")] in
   let w := h_apply (HSet 1 (TSetMinLength 3)) shared in
   h_to_yaml 2 w 0 = Ok (Map TMap [(s_ "type", s_ "object"); (s_ "properties", Map TMap [(s_ "a", t); (s_ "b", t)])]) /\
   h_to_yaml 2 w 2 = Ok (Map TMap [(s_ "type", s_ "array"); (s_ "items", t)])).
Proof.
  split; [eexists; eexists; split; reflexivity|]. split; [reflexivity|]. split; [reflexivity|]. split; [reflexivity|].
  split; [split; [reflexivity|split; [reflexivity|exact I]]|]. split; [reflexivity|]. split; reflexivity.
Qed.

(** The array does not contain the map of the object. *)
Example C63_away_case : complete shared (AType 2) /\ ~ below shared (AType 2) (AMap 0) /\ changes (HMap 0 (put_entry "c" 2)) (AMap 0).
Proof.
  assert (T : exists d, tree 2 shared 2 = Some d) by (eexists; reflexivity). destruct T as [d T].
  assert (B : forall a, below shared (AType 2) a -> a = AType 2 \/ a = AFacets 2 \/ a = AType 1 \/ a = AFacets 1).
  { intros a H. apply clos_rt_rtn1_iff in H. induction H as [|y z Hy _ IH]; [auto|].
    inversion Hy as [r b x f c s E|r b x f c u mn mx i E|r b x f c p mn mx ad di dv E|m mm k r E Hi|f fm k m E Hi]; subst; destruct IH as [X|[X|[X|X]]]; try discriminate; injection X as ->;
      cbn in E; try discriminate; injection E; intros; subst; auto; destruct Hi. }
  split; [exact (proj2 (tree_fine _ _ _ _ T))|]. split; [|reflexivity]. intros H. apply B in H as [H|[H|[H|H]]]; discriminate.
Qed.

(** ** C64 *)

(** A type that is a property of itself: with every size of the stack, writing it overflows the stack. *)
Theorem C64_writing_ends_refuted : exists hs w, w = fold_left (fun w h => h_apply h w) hs no_objects /\ reached w /\ exists_in w (AType 0) /\
  forall (F : FloatIO) depth, @h_to_yaml F depth w 0 = Panic.
Proof.
  exists [HNewType TyObject; HMap 0 (put_entry "a" 0)]. eexists. split; [reflexivity|]. split.
  - cbn [fold_left]. apply reached_call; [apply reached_call; [apply reached_start|exact I]|]. intros mm e Hm He. cbn in Hm. injection Hm as <-. cbn in He.
    destruct He as [<-|[]]. right. cbn. lia.
  - split; [cbn; lia|]. intros F. induction depth as [|depth IH]; [reflexivity|]. cbn in IH. cbn. rewrite IH. reflexivity.
Qed.
Print Assumptions C64_writing_ends_refuted.

(** Writing ends for everything that does not contain itself: as many levels are enough as there are types, and what is written is the definition. *)
Theorem C64_writing_ends_partial {F : FloatIO} w r : reached w -> exists_in w (AType r) -> no_cycle w (AType r) ->
  exists d, tree (List.length (w_types w)) w r = Some d /\ forall depth, (List.length (w_types w) <= depth)%nat -> h_to_yaml depth w r = to_yaml d.
Proof. intros H E N. apply no_cycle_written; [exact (reached_complete w (AType r) H E)|exact N]. Qed.
Print Assumptions C64_writing_ends_partial.

(** And for nothing else. *)
Theorem C64_cycles_not_written {F : FloatIO} depth w r y : h_to_yaml depth w r = Ok y -> complete w (AType r) /\ no_cycle w (AType r).
Proof. exact (written_finite depth w r y). Qed.
Print Assumptions C64_cycles_not_written.

(** The call that does it: adding, as a property, a definition that contains the map it is added to. *)
Theorem C64_property_cycle {F : FloatIO} w m mm k r1 r : nth_error (w_maps w) m = Some mm -> below w (AType r1) (AMap m) -> below w (AType r) (AMap m) ->
  forall depth y, h_to_yaml depth (h_apply (HMap m (put_entry k r1)) w) r <> Ok y.
Proof. exact (property_cycle w m mm k r1 r). Qed.
Print Assumptions C64_property_cycle.

Example C64_case : reached shared /\ exists_in shared (AType 0) /\ no_cycle shared (AType 0).
Proof.
  split; [|split].
  - unfold shared. cbn [fold_left].
    apply reached_call; [apply reached_call; [apply reached_call; [apply reached_call; [apply reached_call; [apply reached_call; [apply reached_start|exact I]|exact I]|]|]|exact I]|].
    + intros mm e Hm He. cbn in Hm. injection Hm as <-. cbn in He. destruct He as [<-|[]]. right. cbn. lia.
    + intros mm e Hm He. cbn in Hm. injection Hm as <-. cbn in He. destruct He as [<-|[<-|[]]]; right; cbn; lia.
    + cbn. lia.
  - cbn. lia.
  - assert (T : exists n d, tree n shared 0 = Some d) by (exists 2%nat; eexists; reflexivity). apply tree_iff in T. exact (proj2 T).
Qed.

Example C64_cycle_case : nth_error (w_maps shared) 0 = Some (mkMap [("a", 1%nat); ("b", 1%nat)] false) /\ below shared (AType 0) (AMap 0).
Proof. split; [reflexivity|]. apply rt_step. eapply holds_properties. reflexivity. Qed.
