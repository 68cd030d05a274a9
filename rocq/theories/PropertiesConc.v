(** Properties C71 and C72: maps and goroutines. *)
From Verif Require Import Base OMap OMapSpec OMapProofs MapFacts Conc ConcSpec ConcProofs.

Local Notation z_ := ("", 0%nat).
Local Notation grow_ := (fun n : nat => S n).

(** The memory of a map with room for two entries, empty, and of one with the entries "a" and "b". *)
Definition empty_mem : shared string nat := mkShared (mkHdr 0 0 2) [[z_; z_]] [] true.
Definition ab_mem : shared string nat := mkShared (mkHdr 0 2 2) [[("a", 1%nat); ("b", 2%nat)]] [("a", 1%nat); ("b", 2%nat)] true.
Definition ab_map : omap string nat := mkOMap [("a", 1%nat); ("b", 2%nat)] [("a", 1%nat); ("b", 2%nat)] true.

Definition calls (cs : list (call string nat)) : client string nat (list (seen string nat)) :=
  (fix go cs acc := match cs with [] => Done (rev acc) | c :: t => Call c (fun x => go t (x :: acc)) end) cs [].

(** ** C71 *)

(** Any number of goroutines whose programs only ask: under every schedule the memory stays as it is, there is no data race, and a goroutine
    that has ended has the result it has alone. *)
Theorem C71_readers (K V R : Type) keq hashable (zero : K * V) grow s (m : omap K V) (ps : list (client K V R)) :
  holds s m -> Forall reader ps -> forall schedule,
  let st := play keq zero grow schedule (s, map (compile keq hashable) ps) in
  fst st = s /\ ~ race (snd st) /\
  (forall i r, nth_error (snd st) i = Some (Ret r) -> exists p, nth_error ps i = Some p /\ result keq hashable m p = Ok r) /\
  (forall i, nth_error (snd st) i = Some Fail -> exists p, nth_error ps i = Some p /\ result keq hashable m p = Panic).
Proof. exact (readers keq hashable zero grow s m ps). Qed.
Print Assumptions C71_readers.

(** Each of them ends, after a number of its own turns that does not depend on the others. *)
Theorem C71_readers_end (K V R : Type) keq hashable (zero : K * V) grow s (m : omap K V) (ps : list (client K V R)) :
  holds s m -> Forall reader ps -> exists n, forall schedule i p,
  (n <= count_occ Nat.eq_dec schedule i)%nat -> nth_error ps i = Some p ->
  nth_error (snd (play keq zero grow schedule (s, map (compile keq hashable) ps))) i =
    Some (match result keq hashable m p with Ok r => Ret r | _ => Fail end).
Proof. exact (readers_end keq hashable zero grow s m ps). Qed.
Print Assumptions C71_readers_end.

(** Readers of a string-keyed map do not panic, if they do not call At. *)
Theorem C71_string_maps (V R : Type) zero grow s (m : omap string V) (ps : list (client string V R)) :
  holds s m -> sm_reachable m -> Forall reader ps -> Forall no_at ps -> exists n, forall schedule i p,
  (n <= count_occ Nat.eq_dec schedule i)%nat -> nth_error ps i = Some p ->
  exists r, result String.eqb any_hash m p = Ok r /\
    nth_error (snd (play String.eqb zero grow schedule (s, map (compile String.eqb any_hash) ps))) i = Some (Ret r).
Proof. exact (readers_strings zero grow s m ps). Qed.
Print Assumptions C71_string_maps.

(** One goroutine writes YAML and JSON, one looks for "b" and goes over the map. *)
Definition asking : list (client string nat (list (seen string nat))) := [calls [CYaml; CJson]; calls [COp (OIndexOf "b"); COp OForEach; COp OLen]].

Example C71_case : holds ab_mem ab_map /\ sm_reachable ab_map /\ Forall reader asking /\ Forall no_at asking /\
  map snd [play String.eqb z_ grow_ (flat_map (fun _ => [0%nat; 1%nat]) (repeat tt 20)) (ab_mem, map (compile String.eqb any_hash) asking)] =
  [[Ret [SYaml true [("a", 1%nat); ("b", 2%nat)]; SJson true [("a", 1%nat); ("b", 2%nat)]];
    Ret [SObs (RInt 1); SObs (REntries [("a", 1%nat); ("b", 2%nat)]); SObs (RInt 2)]]].
Proof.
  split; [repeat split; cbn; auto|]. split; [exists [OPut "a" 1%nat; OPut "b" 2%nat]; reflexivity|].
  split; [|split; [|vm_compute; reflexivity]]; repeat constructor; try discriminate.
Qed.

(** ** C72 *)

(** Two goroutines that put different keys: one entry is lost from the order but not from the index, and the map panics from then on. *)
Theorem C72_consistent_refuted : ~ forall (s : shared string nat) m (ps : list (client string nat (list (seen string nat)))) schedule,
  holds s m -> sm_reachable m -> Forall no_at ps ->
  let st := play String.eqb z_ grow_ schedule (s, map (compile String.eqb any_hash) ps) in
  (forall p, In p (snd st) -> exists r, p = Ret r) -> exists m', sm_reachable m' /\ holds (fst st) m'.
Proof.
  intros H. specialize (H empty_mem new_map [calls [COp (OPut "a" 1%nat)]; calls [COp (OPut "b" 2%nat)]] [0; 0; 0; 1; 1; 1; 0; 0; 1; 1; 0; 1; 0; 1]%nat).
  destruct H as [m' [[ops Hr] Hm]].
  - repeat split; cbn; auto.
  - exists []. reflexivity.
  - repeat constructor; discriminate.
  - vm_compute. intros p [<-|[<-|[]]]; eauto.
  - assert (Hp : sm_step m' (OIndexOf "a") <> Panic).
    { intros E. destruct (proj1 (proj1 (sm_step_panic nat m' (OIndexOf "a") (ex_intro _ ops Hr))) E) as [j [X _]]. discriminate X. }
    apply Hp. vm_compute in Hm. destruct Hm as (_ & _ & _ & Ho & Hi & _). destruct m' as [o ix b]. cbn in Ho, Hi. subst o ix. reflexivity.
Qed.
Print Assumptions C72_consistent_refuted.

(** One goroutine deletes a key while another asks for its position: the other panics, though it does in neither order of the two calls. *)
Theorem C72_no_panic_refuted : ~ forall (s : shared string nat) m (ps : list (client string nat (list (seen string nat)))) schedule,
  holds s m -> sm_reachable m -> Forall no_at ps ->
  ~ In Fail (snd (play String.eqb z_ grow_ schedule (s, map (compile String.eqb any_hash) ps))).
Proof.
  intros H. apply (H ab_mem ab_map [calls [COp (ODelete "b")]; calls [COp (OIndexOf "b")]] [1; 0; 0; 0; 0; 0; 0; 0; 0; 0; 0; 0; 1; 1; 1; 1; 1]%nat).
  - repeat split; cbn; auto.
  - exists [OPut "a" 1%nat; OPut "b" 2%nat]. reflexivity.
  - repeat constructor; discriminate.
  - vm_compute. right. left. reflexivity.
Qed.
Print Assumptions C72_no_panic_refuted.

(** With a mutex around each call: under every schedule there is a sequential history of the calls that have ended, in which each goroutine made
    the calls of its program and saw what it saw; between calls the memory holds the map that history leads to. *)
Theorem C72_locked_partial (K V R : Type) keq hashable zero grow s (m : omap K V) (ps : list (client K V R)) : holds s m -> forall schedule,
  let w := lplay keq hashable zero grow schedule (mkWorld s None (map Wants ps)) in
  exists h m', happened keq hashable m h m' /\
    match w_owner w with Some i => exists q k, nth_error (w_threads w) i = Some (Holds q k) | None => holds (w_mem w) m' end /\
    forall i p, nth_error ps i = Some p -> exists t, nth_error (w_threads w) i = Some t /\
      match t with
      | Wants q => follows i h p q
      | Holds _ k => exists c, follows i h p (Call c k)
      | Panicked => exists h1 h2 m1 c k, h = h1 ++ h2 /\ happened keq hashable m h1 m1 /\ follows i h p (Call c k) /\ answer keq hashable m1 c = Panic
      end.
Proof. exact (lock_history keq hashable zero grow s m ps). Qed.
Print Assumptions C72_locked_partial.

Theorem C72_locked_strings_partial (V R : Type) zero grow s (m : omap string V) (ps : list (client string V R)) :
  holds s m -> sm_reachable m -> Forall no_at ps -> forall schedule i,
  nth_error (w_threads (lplay String.eqb any_hash zero grow schedule (mkWorld s None (map Wants ps)))) i <> Some Panicked.
Proof. exact (lock_strings zero grow s m ps). Qed.
Print Assumptions C72_locked_strings_partial.

(** The two goroutines of the refutation, with the mutex, under a schedule that lets them take turns. *)
Example C72_case :
  let w := lplay String.eqb any_hash z_ grow_ (flat_map (fun _ => [0%nat; 1%nat]) (repeat tt 60))
             (mkWorld empty_mem None (map Wants [calls [COp (OPut "a" 1%nat); COp OLen]; calls [COp (OPut "b" 2%nat); COp (OIndexOf "b")]])) in
  w_threads w = [Wants (Done [SObs RNone; SObs (RInt 2)]); Wants (Done [SObs RNone; SObs (RInt 1)])] /\ w_owner w = None /\
  exists m', ordered m' = [("a", 1%nat); ("b", 2%nat)] /\ holds (w_mem w) m'.
Proof.
  split; [vm_compute; reflexivity|]. split; [vm_compute; reflexivity|]. exists ab_map. split; [reflexivity|]. vm_compute. repeat split; auto.
Qed.
