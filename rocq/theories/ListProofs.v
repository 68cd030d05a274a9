(** Proofs about Lists.v. *)
From Coq Require Import SpecFloat Lia.
From Verif Require Import Base Num OMap OMapSpec Keys Yaml Values Assign Formats Meta Out Xml Example Doc DataType Api Library Into TypeFacts Fields FieldProofs Lists ListSpec.

Lemma field_eqb_eq f g : field_eqb f g = true <-> f = g.
Proof. destruct f, g; cbn; split; intros H; congruence. Qed.

Lemma place_eqb_eq p q : place_eqb p q = true <-> p = q.
Proof.
  destruct p as [x|o f], q as [y|u g]; cbn [place_eqb].
  - rewrite Nat.eqb_eq. split; congruence.
  - split; discriminate.
  - split; discriminate.
  - rewrite andb_true_iff, Nat.eqb_eq, field_eqb_eq. split; [intros [-> ->]; reflexivity|intros [= -> ->]; auto].
Qed.

Lemma place_eqb_refl p : place_eqb p p = true.
Proof. apply place_eqb_eq. reflexivity. Qed.

Lemma place_eqb_neq p q : p <> q -> place_eqb p q = false.
Proof. intros H. destruct (place_eqb p q) eqn:E; [|reflexivity]. apply place_eqb_eq in E. contradiction. Qed.

Lemma place_dec (p q : place) : p = q \/ p <> q.
Proof. destruct (place_eqb p q) eqn:E; [left; apply place_eqb_eq; exact E|right]. intros ->. rewrite place_eqb_refl in E. discriminate E. Qed.

(** Slices lie in arrays in use. *)
Definition in_use (w : world) : Prop := forall p h, at_ w p = Some h -> arr h < next (mem w).

Lemma at_put p s w q : at_ (put p s w) q = if place_eqb q p then s else at_ w q.
Proof. reflexivity. Qed.

Lemma window_same m m' h : (forall i, off h <= i < off h + len h -> cell m' (arr h) i = cell m (arr h) i) -> window m' h = window m h.
Proof. intros H. unfold window. apply map_ext_in. intros i I. apply in_seq in I. apply H. lia. Qed.

Lemma seen_same w w' q :
  at_ w' q = at_ w q -> (forall a i, shows w q a i -> cell (mem w') a i = cell (mem w) a i) -> seen w' q = seen w q.
Proof.
  intros E H. unfold seen. rewrite E. unfold contents. destruct (at_ w q) as [h|] eqn:A; [|reflexivity].
  cbn [option_map]. f_equal. apply window_same. intros i I. apply H. unfold shows. rewrite A. auto.
Qed.

Lemma shows_same w w' q a i : at_ w' q = at_ w q -> shows w' q a i <-> shows w q a i.
Proof. intros E. unfold shows. rewrite E. reflexivity. Qed.
Lemma room_same w w' q a i : at_ w' q = at_ w q -> has_room w' q a i <-> has_room w q a i.
Proof. intros E. unfold has_room. rewrite E. reflexivity. Qed.

Lemma shows_in_use w q a i : in_use w -> shows w q a i -> a < next (mem w).
Proof. intros U. unfold shows. destruct (at_ w q) as [h|] eqn:A; [|intros []]. intros [-> _]. exact (U q h A). Qed.
Lemma room_in_use w q a i : in_use w -> has_room w q a i -> a < next (mem w).
Proof. intros U. unfold has_room. destruct (at_ w q) as [h|] eqn:A; [|intros []]. intros [-> _]. exact (U q h A). Qed.

Lemma window_fresh vs spare m : window (fst (fresh vs spare m)) (snd (fresh vs spare m)) = vs.
Proof.
  unfold window, fresh. cbn [fst snd arr off len cell]. rewrite Nat.eqb_refl.
  apply nth_ext with (d := EZero) (d' := EZero); [rewrite map_length, seq_length; reflexivity|].
  intros i I. rewrite map_length, seq_length in I.
  rewrite (nth_indep _ EZero (nth (0 + 0) vs EZero)) by (rewrite map_length, seq_length; exact I).
  rewrite (map_nth (fun i => nth (0 + i) vs EZero) (seq 0 (List.length vs)) 0 i), seq_nth by exact I. reflexivity.
Qed.

(** What a step that gives [p] a longer list, or a new one, does. *)
Record gives (p : place) (vs : list elem) (w w' : world) : Prop := mkGives {
  g_next : next (mem w) <= next (mem w');
  g_use : in_use w -> in_use w';
  g_other : forall q, q <> p -> at_ w' q = at_ w q;
  g_new : in_use w -> seen w' p = Some vs;
  g_cell : forall a i, a < next (mem w) -> ~ has_room w p a i -> cell (mem w') a i = cell (mem w) a i;
  g_room : forall a i, has_room w' p a i -> has_room w p a i \/ next (mem w) <= a;
  g_shows : forall a i, shows w' p a i -> shows w p a i \/ has_room w p a i \/ next (mem w) <= a
}.

Lemma fresh_gives p vs spare w : gives p vs w (fresh_at p vs spare w).
Proof.
  unfold fresh_at. destruct (fresh vs spare (mem w)) as [m h] eqn:E.
  pose proof (window_fresh vs spare (mem w)) as W. rewrite E in W. cbn [fst snd] in W.
  unfold fresh in E. injection E as <- <-.
  constructor.
  - cbn [put mem next]. lia.
  - intros U q h. cbn [put mem at_ next]. destruct (place_eqb q p); [intros [= <-]; cbn [arr]; lia|].
    intros A. specialize (U q h A). lia.
  - intros q N. cbn [put at_]. rewrite (place_eqb_neq _ _ N). reflexivity.
  - intros U. unfold seen. cbn [put at_ mem]. rewrite place_eqb_refl. cbn [contents option_map]. rewrite W. reflexivity.
  - intros a i L _. cbn [put mem cell]. destruct (Nat.eqb a (next (mem w))) eqn:Q; [apply Nat.eqb_eq in Q; lia|reflexivity].
  - intros a i. unfold has_room at 1. cbn [put at_]. rewrite place_eqb_refl. cbn [arr]. intros [-> _]. right. lia.
  - intros a i. unfold shows at 1. cbn [put at_]. rewrite place_eqb_refl. cbn [arr]. intros [-> _]. right. right. lia.
Qed.

Definition shown (w : world) (p : place) : list elem := match seen w p with Some l => l | None => [] end.

Section Lists.
  Context {F : FloatIO}.
  Variable grow : nat -> nat.

  Lemma append_gives p v w : gives p (shown w p ++ [v]) w (append_at grow p v w).
  Proof.
    unfold append_at, push, shown, seen. destruct (at_ w p) as [h|] eqn:A.
    - destruct (Nat.ltb (len h) (cap h)) eqn:L.
      + apply Nat.ltb_lt in L. cbn [contents option_map]. constructor.
        * cbn [put mem next set_cell]. lia.
        * intros U q h'. cbn [put mem at_ next set_cell]. destruct (place_eqb q p); [intros [= <-]; cbn [arr]; exact (U p h A)|].
          intros A'. exact (U q h' A').
        * intros q N. cbn [put at_]. rewrite (place_eqb_neq _ _ N). reflexivity.
        * intros U. unfold seen. cbn [put at_ mem]. rewrite place_eqb_refl. cbn [contents option_map]. f_equal.
          unfold window. cbn [arr off len]. rewrite seq_S, map_app. cbn [map Nat.add set_cell cell]. rewrite !Nat.eqb_refl. cbn [andb]. f_equal.
          apply map_ext_in. intros i I. apply in_seq in I.
          destruct (Nat.eqb (off h + i) (off h + len h)) eqn:Q; [apply Nat.eqb_eq in Q; lia|]. reflexivity.
        * intros a i _ N. cbn [put mem set_cell cell]. destruct (Nat.eqb a (arr h) && Nat.eqb i (off h + len h))%bool eqn:Q; [|reflexivity].
          apply andb_true_iff in Q. destruct Q as [Qa Qi]. apply Nat.eqb_eq in Qa, Qi. exfalso. apply N. unfold has_room. rewrite A. split; [exact Qa|lia].
        * intros a i. unfold has_room. cbn [put at_]. rewrite place_eqb_refl, A. cbn [arr off len cap]. intros [-> I]. left. split; [reflexivity|lia].
        * intros a i. unfold shows, has_room. cbn [put at_]. rewrite place_eqb_refl, A. cbn [arr off len cap]. intros [-> I].
          destruct (Nat.eq_dec i (off h + len h)) as [->|Q]; [right; left|left]; (split; [reflexivity|lia]).
      + pose proof (fresh_gives p (window (mem w) h ++ [v]) (grow (len h)) w) as G. unfold fresh_at in G. cbn [contents option_map].
        destruct (fresh (window (mem w) h ++ [v]) (grow (len h)) (mem w)) as [m' h']. exact G.
    - pose proof (fresh_gives p [v] (grow 0) w) as G. unfold fresh_at in G. cbn [contents option_map app].
      destruct (fresh [v] (grow 0) (mem w)) as [m' h']. exact G.
  Qed.
End Lists.

(** Others whose elements are not in the room see no difference. *)
Lemma gives_frame p vs w w' q :
  gives p vs w w' -> in_use w -> q <> p -> (forall a i, has_room w p a i -> ~ shows w q a i) -> seen w' q = seen w q.
Proof.
  intros G U N D. apply seen_same; [exact (g_other _ _ _ _ G q N)|].
  intros a i S. apply (g_cell _ _ _ _ G); [exact (shows_in_use w q a i U S)|]. intros R. exact (D a i R S).
Qed.

(** ** Readings *)

(** A sequence of such steps on the lists of one object. *)
Inductive changes (o : nat) : world -> world -> Prop :=
| ch_none w : changes o w w
| ch_step f vs w w1 w2 : gives (Field o f) vs w w1 -> changes o w1 w2 -> changes o w w2.

Lemma changes_trans o w1 w2 w3 : changes o w1 w2 -> changes o w2 w3 -> changes o w1 w3.
Proof. intros H. induction H as [|f vs w w1 w2 G C IH]; [auto|]. intros K. exact (ch_step o f vs w w1 w3 G (IH K)). Qed.

Lemma changes_one o f vs w w' : gives (Field o f) vs w w' -> changes o w w'.
Proof. intros G. exact (ch_step o f vs w w' w' G (ch_none o w')). Qed.

Section Read.
  Context {F : FloatIO}.
  Variable grow : nat -> nat.

  Lemma loop_changes {E} (step : world -> E -> world * res unit) o :
    (forall w e, changes o w (fst (step w e))) -> forall l w, changes o w (fst (loop step w l)).
  Proof.
    intros H l. induction l as [|e t IH]; intros w; [apply ch_none|]. cbn [loop]. pose proof (H w e) as C.
    destruct (step w e) as [w1 [u| |]]; cbn [fst] in *; try exact C. exact (changes_trans _ _ _ _ C (IH w1)).
  Qed.

  Lemma read_list_changes o f n w : changes o w (fst (read_list (Field o f) n w)).
  Proof.
    unfold read_list. destruct (seq_for_each string_list_step [] n) as [tmp [u| |]]; cbn [fst]; try apply ch_none.
    exact (changes_one _ _ _ _ _ (fresh_gives _ _ _ _)).
  Qed.

  Lemma read_push_changes o f r w : changes o w (fst (read_push grow (Field o f) r w)).
  Proof. unfold read_push. destruct r; cbn [fst]; try apply ch_none. exact (changes_one _ _ _ _ _ (append_gives _ _ _ _)). Qed.

  Lemma read_field_changes kd o f n w : changes o w (fst (read_field grow kd o f n w)).
  Proof.
    unfold read_field. destruct f; try apply read_list_changes.
    - destruct (is_string n); [|apply read_list_changes]. exact (changes_one _ _ _ _ _ (append_gives _ _ _ _)).
    - unfold seq_for_each. destruct n as [tag s|tag l|tag l]; cbn [fst]; try apply ch_none. apply loop_changes. intros w1 e. apply read_push_changes.
    - unfold seq_for_each. destruct n as [tag s|tag l|tag l]; cbn [fst]; try apply ch_none. apply loop_changes. intros w1 e. apply read_push_changes.
  Qed.

  Lemma read_api_changes o n w : changes o w (fst (read_api grow o n w)).
  Proof.
    unfold read_api, map_for_each. destruct n as [tag s|tag l|tag l]; cbn [fst]; try apply ch_none.
    apply loop_changes. intros w1 e. unfold api_entry. destruct (api_field (fst e)); [apply read_field_changes|apply ch_none].
  Qed.

  Lemma read_type_changes kd o n w : changes o w (fst (read_type grow kd o n w)).
  Proof.
    unfold read_type. destruct (is_string n); [apply ch_none|]. destruct n as [tag s|tag l|tag l]; cbn [fst]; try apply ch_none.
    apply loop_changes. intros w1 e. unfold type_entry. destruct (type_field kd (fst e)); [apply read_field_changes|apply ch_none].
  Qed.

  (** A reading changes a list elsewhere only if the list reaches into the room of a list of the object. *)
  Lemma changes_frame o w w' q :
    changes o w w' -> in_use w -> ~ of_object o q -> (forall f a i, has_room w (Field o f) a i -> ~ shows w q a i) ->
    seen w' q = seen w q /\ at_ w' q = at_ w q.
  Proof.
    intros C. induction C as [w|f vs w w1 w2 G C IH]; intros U N D; [auto|].
    assert (Nq : q <> Field o f) by (intros ->; apply N; reflexivity).
    pose proof (g_other _ _ _ _ G q Nq) as E1.
    destruct (IH (g_use _ _ _ _ G U) N) as [S A].
    - intros g a i R S. apply (shows_same w w1 q a i E1) in S.
      assert (R0 : has_room w (Field o g) a i \/ next (mem w) <= a).
      { destruct (place_dec (Field o g) (Field o f)) as [Q|Q]; [rewrite Q in *; exact (g_room _ _ _ _ G a i R)|].
        left. apply (room_same w w1 _ a i (g_other _ _ _ _ G _ Q)). exact R. }
      destruct R0 as [R0|R0]; [exact (D g a i R0 S)|]. pose proof (shows_in_use w q a i U S). lia.
    - split; [|rewrite A; exact E1]. rewrite S. apply (gives_frame _ _ _ _ _ G U Nq). exact (D f).
  Qed.
End Read.

(** ** Careful programs *)

Definition owner (mine : nat -> bool) (p : place) : Prop := match p with Held x => mine x = true | Field _ _ => True end.

Record apart (mine : nat -> bool) (w : world) : Prop := mkApart {
  ap_use : in_use w;
  ap_shows : forall p q a i, owner mine p -> p <> q -> has_room w p a i -> ~ shows w q a i;
  ap_room : forall p q a i, owner mine p -> owner mine q -> p <> q -> has_room w p a i -> ~ has_room w q a i
}.

(** A list is given to [p], which owned its room or had none. *)
Lemma gives_apart mine mine' p vs w w' :
  apart mine w -> gives p vs w w' -> (owner mine p \/ is_full w p) -> (forall q, q <> p -> owner mine' q -> owner mine q) -> apart mine' w'.
Proof.
  intros [U S R] G O M. pose proof (g_use _ _ _ _ G U) as U'.
  assert (O' : forall a i, has_room w p a i -> owner mine p).
  { intros a i H. destruct O as [O|O]; [exact O|]. exfalso. unfold is_full in O. unfold has_room in H. destruct (at_ w p) as [h|]; [lia|exact H]. }
  assert (E : forall q, q <> p -> at_ w' q = at_ w q) by exact (g_other _ _ _ _ G).
  constructor; [exact U'| |].
  - intros r q a i Or N Hr Hs. destruct (place_dec r p) as [->|Nr].
    + assert (Nq : q <> p) by congruence. apply (shows_same w w' q a i (E q Nq)) in Hs.
      destruct (g_room _ _ _ _ G a i Hr) as [H|H]; [exact (S p q a i (O' a i H) N H Hs)|]. pose proof (shows_in_use w q a i U Hs). lia.
    + apply (room_same w w' r a i (E r Nr)) in Hr. pose proof (M r Nr Or) as Or'. destruct (place_dec q p) as [->|Nq].
      * destruct (g_shows _ _ _ _ G a i Hs) as [H|[H|H]].
        -- exact (S r p a i Or' N Hr H).
        -- exact (R r p a i Or' (O' a i H) N Hr H).
        -- pose proof (room_in_use w r a i U Hr). lia.
      * apply (shows_same w w' q a i (E q Nq)) in Hs. exact (S r q a i Or' N Hr Hs).
  - assert (K : forall r a i, r <> p -> owner mine' r -> has_room w' p a i -> has_room w' r a i -> False).
    { intros r a i Nr Or Hp Hr. apply (room_same w w' r a i (E r Nr)) in Hr. pose proof (M r Nr Or) as Or'.
      destruct (g_room _ _ _ _ G a i Hp) as [H|H]; [exact (R r p a i Or' (O' a i H) Nr Hr H)|]. pose proof (room_in_use w r a i U Hr). lia. }
    intros r q a i Or Oq N Hr Hq. destruct (place_dec r p) as [->|Nr]; [apply (K q a i); auto|].
    destruct (place_dec q p) as [->|Nq]; [exact (K r a i Nr Or Hq Hr)|].
    apply (room_same w w' r a i (E r Nr)) in Hr. apply (room_same w w' q a i (E q Nq)) in Hq.
    exact (R r q a i (M r Nr Or) (M q Nq Oq) N Hr Hq).
Qed.

Lemma changes_apart mine o w w' : changes o w w' -> apart mine w -> apart mine w'.
Proof.
  intros C. induction C as [w|f vs w w1 w2 G C IH]; intros A; [exact A|]. apply IH.
  apply (gives_apart mine mine (Field o f) vs w w1 A G); [left; exact I|auto].
Qed.

(** In such a world the object's own lists are changed only by reading them. *)
Lemma gives_other mine f vs w w' o q : apart mine w -> gives (Field o f) vs w w' -> q <> Field o f -> seen w' q = seen w q.
Proof.
  intros A G N. apply (gives_frame _ _ _ _ _ G (ap_use _ _ A) N). intros a i R. apply (ap_shows _ _ A (Field o f) q a i I); [congruence|exact R].
Qed.

Lemma put_apart mine mine' p s w :
  apart mine w -> (forall h, s = Some h -> arr h < next (mem w)) -> (forall q, q <> p -> owner mine' q -> owner mine q) ->
  (* elements of the new list are in nobody's room, but for owners that are owners no more *)
  (forall q h a i, q <> p -> owner mine' q -> s = Some h -> a = arr h -> off h <= i < off h + len h -> ~ has_room w q a i) ->
  (* its room is nobody's *)
  (owner mine' p -> forall q h a i, q <> p -> s = Some h -> a = arr h -> off h + len h <= i < off h + cap h ->
     ~ shows w q a i /\ (owner mine' q -> ~ has_room w q a i)) ->
  apart mine' (put p s w).
Proof.
  intros [U S R] L M W V.
  assert (E : forall q, q <> p -> at_ (put p s w) q = at_ w q) by (intros q N; rewrite at_put, (place_eqb_neq _ _ N); reflexivity).
  assert (Ep : at_ (put p s w) p = s) by (rewrite at_put, place_eqb_refl; reflexivity).
  constructor.
  - intros q h A. destruct (place_dec q p) as [->|N]; [rewrite Ep in A; exact (L h A)|]. rewrite (E q N) in A. exact (U q h A).
  - intros r q a i Or N Hr Hs. destruct (place_dec r p) as [->|Nr].
    + assert (Nq : q <> p) by congruence. apply (shows_same w (put p s w) q a i (E q Nq)) in Hs. unfold has_room in Hr. rewrite Ep in Hr.
      destruct s as [h|]; [|exact Hr]. destruct Hr as [Ha Hi]. exact (proj1 (V Or q h a i Nq eq_refl Ha Hi) Hs).
    + apply (room_same w (put p s w) r a i (E r Nr)) in Hr. destruct (place_dec q p) as [->|Nq].
      * unfold shows in Hs. rewrite Ep in Hs. destruct s as [h|]; [|exact Hs]. destruct Hs as [Ha Hi].
        exact (W r h a i Nr Or eq_refl Ha Hi Hr).
      * apply (shows_same w (put p s w) q a i (E q Nq)) in Hs. exact (S r q a i (M r Nr Or) N Hr Hs).
  - assert (K : forall r a i, r <> p -> owner mine' r -> owner mine' p -> has_room (put p s w) p a i -> has_room (put p s w) r a i -> False).
    { intros r a i Nr Or Op Hp Hr. apply (room_same w (put p s w) r a i (E r Nr)) in Hr. unfold has_room in Hp. rewrite Ep in Hp.
      destruct s as [h|]; [|exact Hp]. destruct Hp as [Ha Hi]. exact (proj2 (V Op r h a i Nr eq_refl Ha Hi) Or Hr). }
    intros r q a i Or Oq N Hr Hq. destruct (place_dec r p) as [->|Nr]; [apply (K q a i); auto|].
    destruct (place_dec q p) as [->|Nq]; [exact (K r a i Nr Or Oq Hq Hr)|].
    apply (room_same w (put p s w) r a i (E r Nr)) in Hr. apply (room_same w (put p s w) q a i (E q Nq)) in Hq.
    exact (R r q a i (M r Nr Or) (M q Nq Oq) N Hr Hq).
Qed.

Lemma mark_same x b mine : mark x b mine x = b.
Proof. unfold mark. rewrite Nat.eqb_refl. reflexivity. Qed.

Lemma owner_mark x b mine q : q <> Held x -> owner (mark x b mine) q -> owner mine q.
Proof.
  intros N. destruct q as [y|o f]; [|auto]. cbn [owner]. unfold mark. destruct (Nat.eqb y x) eqn:E; [|auto].
  apply Nat.eqb_eq in E. congruence.
Qed.

Lemma owner_drop x mine q : owner (mark x false mine) q -> q <> Held x /\ owner mine q.
Proof.
  intros O. assert (N : q <> Held x). { intros ->. cbn [owner] in O. rewrite mark_same in O. discriminate O. }
  split; [exact N|exact (owner_mark x false mine q N O)].
Qed.

Lemma apart_fewer mine mine' w : apart mine w -> (forall q, owner mine' q -> owner mine q) -> apart mine' w.
Proof.
  intros [U S R] M. constructor; [exact U|intros p q a i Op; exact (S p q a i (M p Op))|].
  intros p q a i Op Oq. exact (R p q a i (M p Op) (M q Oq)).
Qed.

Lemma room_not_shown w p a i : has_room w p a i -> ~ shows w p a i.
Proof. unfold has_room, shows. destruct (at_ w p) as [h|]; [lia|auto]. Qed.

(** Elements of a list are in no owner's room. *)
Lemma shown_not_room mine w p q a i : apart mine w -> owner mine q -> shows w p a i -> ~ has_room w q a i.
Proof.
  intros A O S R. destruct (place_dec q p) as [->|N]; [exact (room_not_shown w p a i R S)|]. exact (ap_shows _ _ A q p a i O N R S).
Qed.

Lemma start_apart : apart all_mine start.
Proof.
  constructor.
  - intros p h A. discriminate A.
  - intros p q a i _ _ R. destruct R.
  - intros p q a i _ _ _ R. destruct R.
Qed.

Section Act.
  Context {F : FloatIO}.
  Variable grow : nat -> nat.

  Lemma act_apart mine a w : apart mine w -> careful mine w a -> apart (mine_after a mine) (act grow a w).
  Proof.
    intros A C. destruct a as [x vs spare|x|x o f|o f x|x i v|x v|x y i j k|o n|kd o n]; cbn [careful mine_after act] in *.
    - (* a new list: it does not matter what was there *)
      pose proof (fresh_gives (Held x) vs spare w) as G. destruct A as [U S R].
      pose proof (g_use _ _ _ _ G U) as U'.
      assert (E : forall q, q <> Held x -> at_ (fresh_at (Held x) vs spare w) q = at_ w q) by exact (g_other _ _ _ _ G).
      assert (B : forall a i, shows (fresh_at (Held x) vs spare w) (Held x) a i \/ has_room (fresh_at (Held x) vs spare w) (Held x) a i -> next (mem w) <= a).
      { intros a i. unfold fresh_at, shows, has_room. cbn [fresh put at_]. rewrite place_eqb_refl. cbn [arr]. intros [[-> _]|[-> _]]; lia. }
      constructor; [exact U'| |].
      + intros r q a i Or N Hr Hs. destruct (place_dec r (Held x)) as [->|Nr].
        * pose proof (B a i (or_intror Hr)) as L. apply (shows_same w _ q a i (E q (fun Q => N (eq_sym Q)))) in Hs. pose proof (shows_in_use w q a i U Hs). lia.
        * apply (room_same w _ r a i (E r Nr)) in Hr. pose proof (room_in_use w r a i U Hr) as L1. destruct (place_dec q (Held x)) as [->|Nq].
          -- pose proof (B a i (or_introl Hs)). lia.
          -- apply (shows_same w _ q a i (E q Nq)) in Hs. exact (S r q a i (owner_mark x true mine r Nr Or) N Hr Hs).
      + intros r q a i Or Oq N Hr Hq. destruct (place_dec r (Held x)) as [->|Nr].
        * pose proof (B a i (or_intror Hr)) as L. apply (room_same w _ q a i (E q (fun Q => N (eq_sym Q)))) in Hq. pose proof (room_in_use w q a i U Hq). lia.
        * apply (room_same w _ r a i (E r Nr)) in Hr. pose proof (room_in_use w r a i U Hr) as L1. destruct (place_dec q (Held x)) as [->|Nq].
          -- pose proof (B a i (or_intror Hq)). lia.
          -- apply (room_same w _ q a i (E q Nq)) in Hq. exact (R r q a i (owner_mark x true mine r Nr Or) (owner_mark x true mine q Nq Oq) N Hr Hq).
    - apply (put_apart mine); [exact A|intros h E; discriminate E|intros q N; apply owner_mark; exact N|intros q h a i _ _ E; discriminate E|intros _ q h a i _ E; discriminate E].
    - apply (put_apart mine); [exact A|intros h E; exact (ap_use _ _ A _ h E)|intros q N; apply owner_mark; exact N| |].
      + intros q h a i N O E Ha Hi. destruct (owner_drop x mine q O) as [_ O']. apply (shown_not_room mine w (Field o f) q a i A O').
        unfold shows. rewrite E. auto.
      + intros O. exfalso. exact (proj1 (owner_drop x mine _ O) eq_refl).
    - apply (put_apart mine); [exact A|intros h E; exact (ap_use _ _ A _ h E)|intros q N O; exact (proj2 (owner_drop x mine q O))| |].
      + intros q h a i N O E Ha Hi. destruct (owner_drop x mine q O) as [_ O']. apply (shown_not_room mine w (Held x) q a i A O').
        unfold shows. rewrite E. auto.
      + intros _ q h a i N E Ha Hi.
        assert (R : has_room w (Held x) a i) by (unfold has_room; rewrite E; auto).
        destruct C as [C|C]; [|unfold is_full in C; rewrite E in C; lia].
        split.
        * intros S. destruct (place_dec q (Held x)) as [->|Nq]; [exact (room_not_shown w _ a i R S)|].
          exact (ap_shows _ _ A (Held x) q a i C (fun Q => Nq (eq_sym Q)) R S).
        * intros O. destruct (owner_drop x mine q O) as [Nq O']. exact (ap_room _ _ A (Held x) q a i C O' (fun Q => Nq (eq_sym Q)) R).
    - destruct (at_ w (Held x)) as [h|] eqn:E; [|exact A]. destruct (Nat.ltb i (len h)); [|exact A]. destruct A as [U S R]. constructor.
      + exact U.
      + exact S.
      + exact R.
    - apply (gives_apart mine _ (Held x) _ w _ A (append_gives grow (Held x) v w)); [exact C|]. intros q N O. exact (owner_mark x true mine q N O).
    - assert (Keep : apart (mark x false mine) w) by (apply (apart_fewer mine); [exact A|intros q O; exact (proj2 (owner_drop x mine q O))]).
      destruct (at_ w (Held y)) as [h|] eqn:E.
      + destruct (Nat.leb i j && Nat.leb j k && Nat.leb k (cap h))%bool eqn:B; [|exact Keep].
        apply andb_true_iff in B. destruct B as [B Bk]. apply andb_true_iff in B. destruct B as [Bi Bj]. apply Nat.leb_le in Bi, Bj, Bk.
        apply (put_apart mine); [exact A|intros h' [= <-]; exact (ap_use _ _ A _ h E)|intros q N; apply owner_mark; exact N| |].
        * intros q h' a c N O [= <-] Ha Hi. cbn [arr off len] in *. destruct (owner_drop x mine q O) as [_ O'].
          apply (shown_not_room mine w (Held y) q a c A O'). unfold shows. rewrite E. split; [exact Ha|lia].
        * intros O. exfalso. exact (proj1 (owner_drop x mine _ O) eq_refl).
      + destruct (Nat.eqb i 0 && Nat.eqb j 0 && Nat.eqb k 0)%bool; [|exact Keep].
        apply (put_apart mine); [exact A|intros h E'; discriminate E'|intros q N; apply owner_mark; exact N|intros q h a c _ _ E'; discriminate E'|intros _ q h a c _ E'; discriminate E'].
    - exact (changes_apart mine o w _ (read_api_changes grow o n w) A).
    - exact (changes_apart mine o w _ (read_type_changes grow kd o n w) A).
  Qed.

  Fixpoint mine_run (l : list action) (mine : nat -> bool) : nat -> bool :=
    match l with [] => mine | a :: t => mine_run t (mine_after a mine) end.

  Lemma run_apart l : forall mine w, apart mine w -> careful_all grow mine w l -> apart (mine_run l mine) (run grow l w).
  Proof.
    induction l as [|a t IH]; intros mine w A C; [exact A|]. destruct C as [C1 C2]. exact (IH _ _ (act_apart mine a w A C1) C2).
  Qed.

  (** A reading in such a world leaves all other lists alone. *)
  Lemma apart_frame mine o w w' q : changes o w w' -> apart mine w -> ~ of_object o q -> seen w' q = seen w q.
  Proof.
    intros C A N. apply (changes_frame o w w' q C (ap_use _ _ A) N). intros f a i R. apply (ap_shows _ _ A (Field o f) q a i I); [|exact R].
    intros <-. apply N. reflexivity.
  Qed.

  Lemma use_run l : forall w, in_use w -> in_use (run grow l w).
  Proof.
    assert (P : forall p s w, in_use w -> (forall h, s = Some h -> arr h < next (mem w)) -> in_use (put p s w)).
    { intros p s w U H q h. rewrite at_put. destruct (place_eqb q p); [apply H|apply U]. }
    assert (C : forall o w w', changes o w w' -> in_use w -> in_use w').
    { intros o w w' C. induction C as [w|f vs w w1 w2 G C IH]; [auto|]. intros U. exact (IH (g_use _ _ _ _ G U)). }
    induction l as [|a t IH]; intros w U; [exact U|]. cbn [run fold_left]. apply IH. clear IH t.
    destruct a as [x vs spare|x|x o f|o f x|x i v|x v|x y i j k|o n|kd o n]; cbn [act].
    - exact (g_use _ _ _ _ (fresh_gives (Held x) vs spare w) U).
    - apply P; [exact U|intros h E; discriminate E].
    - apply P; [exact U|intros h E; exact (U _ h E)].
    - apply P; [exact U|intros h E; exact (U _ h E)].
    - destruct (at_ w (Held x)) as [h|] eqn:E; [|exact U]. destruct (Nat.ltb i (len h)); exact U.
    - exact (g_use _ _ _ _ (append_gives grow (Held x) v w) U).
    - destruct (at_ w (Held y)) as [h|] eqn:E.
      + destruct (Nat.leb i j && Nat.leb j k && Nat.leb k (cap h))%bool; [|exact U]. apply P; [exact U|intros h' [= <-]; exact (U _ h E)].
      + destruct (Nat.eqb i 0 && Nat.eqb j 0 && Nat.eqb k 0)%bool; [|exact U]. apply P; [exact U|intros h E'; discriminate E'].
    - exact (C o w _ (read_api_changes grow o n w) U).
    - exact (C o w _ (read_type_changes grow kd o n w) U).
  Qed.
End Act.

(** ** What is read *)

Section Value.
  Context {F : FloatIO}.
  Variable grow : nat -> nat.

  Lemma read_list_value p n w old : in_use w -> seen w p = strs old ->
    snd (read_list p n w) = snd (as_string_list n old) /\ seen (fst (read_list p n w)) p = strs (fst (as_string_list n old)).
  Proof.
    intros U S. unfold read_list, as_string_list. destruct (seq_for_each string_list_step [] n) as [tmp [u| |]]; cbn [fst snd].
    - split; [reflexivity|]. exact (g_new _ _ _ _ (fresh_gives p (map EStr tmp) 0 w) U).
    - split; [reflexivity|exact S].
    - split; [reflexivity|exact S].
  Qed.

  Lemma shown_opt {A} (wrap : A -> elem) w p old : seen w p = option_map (map wrap) old -> shown w p = map wrap (opt_list old).
  Proof. unfold shown. intros ->. destruct old; reflexivity. Qed.

  Lemma append_value {A} (wrap : A -> elem) p w old v : in_use w -> seen w p = option_map (map wrap) old ->
    seen (append_at grow p (wrap v) w) p = option_map (map wrap) (Some (opt_list old ++ [v])).
  Proof.
    intros U S. rewrite (g_new _ _ _ _ (append_gives grow p (wrap v) w) U), (shown_opt wrap w p old S). cbn [option_map]. rewrite map_app. reflexivity.
  Qed.

  Lemma pushes_value {A} (wrap : A -> elem) (dec : node -> res A) p l : forall w old, in_use w -> seen w p = option_map (map wrap) old ->
    let r := loop (fun w v => read_push grow p (do x <- dec v; Ok (wrap x)) w) w l in
    let r' := loop (fun acc cur => whole acc (do x <- dec cur; Ok (Some (opt_list acc ++ [x])))) old l in
    snd r = snd r' /\ seen (fst r) p = option_map (map wrap) (fst r').
  Proof.
    induction l as [|v t IH]; intros w old U S; [split; [reflexivity|exact S]|]. cbn [loop]. destruct (dec v) as [x| |]; cbn [bind read_push whole].
    - apply (IH (append_at grow p (wrap x) w) (Some (opt_list old ++ [x]))).
      + exact (g_use _ _ _ _ (append_gives grow p (wrap x) w) U).
      + exact (append_value wrap p w old x U S).
    - split; [reflexivity|exact S].
    - split; [reflexivity|exact S].
  Qed.

  Lemma enum_value kd o n w old : in_use w -> seen w (Field o FEnum) = option_map (map EVal) old ->
    snd (read_field grow kd o FEnum n w) = snd (enum_in kd n old) /\
    seen (fst (read_field grow kd o FEnum n w)) (Field o FEnum) = option_map (map EVal) (fst (enum_in kd n old)).
  Proof.
    intros U S. unfold read_field, enum_in, seq_for_each. destruct n as [tag s|tag l|tag l]; [split; [reflexivity|exact S]| |split; [reflexivity|exact S]].
    exact (pushes_value EVal (enum_elem kd) (Field o FEnum) l w old U S).
  Qed.

  Lemma docs_value kd o n w old : in_use w -> seen w (Field o FDocumentation) = option_map (map EDoc) old ->
    snd (read_field grow kd o FDocumentation n w) = snd (docs_in n old) /\
    seen (fst (read_field grow kd o FDocumentation n w)) (Field o FDocumentation) = option_map (map EDoc) (fst (docs_in n old)).
  Proof.
    intros U S. unfold read_field, docs_in, seq_for_each. destruct n as [tag s|tag l|tag l]; [split; [reflexivity|exact S]| |split; [reflexivity|exact S]].
    exact (pushes_value EDoc (fun v => doc_unmarshal v new_doc) (Field o FDocumentation) l w old U S).
  Qed.

  Lemma media_value kd o n w old : in_use w -> seen w (Field o FMediaTypes) = strs old ->
    snd (read_field grow kd o FMediaTypes n w) = snd (whole old (read_media n old)) /\
    seen (fst (read_field grow kd o FMediaTypes n w)) (Field o FMediaTypes) = strs (fst (whole old (read_media n old))).
  Proof.
    intros U S. unfold read_field, read_media. destruct (is_string n).
    - split; [reflexivity|]. exact (append_value EStr _ w old (value n) U S).
    - destruct (read_list_value (Field o FMediaTypes) n w old U S) as [R1 R2]. rewrite R1, R2. unfold as_string_list.
      destruct (seq_for_each string_list_step [] n) as [tmp [u| |]]; split; reflexivity.
  Qed.

  Lemma other_of_read mine kd o f n w q : apart mine w -> q <> Field o f -> seen (fst (read_field grow kd o f n w)) q = seen w q.
  Proof.
    intros A N.
    assert (K : forall (step : world -> node -> world * res unit) l w, apart mine w ->
      (forall w e, apart mine w -> apart mine (fst (step w e)) /\ seen (fst (step w e)) q = seen w q) -> seen (fst (loop step w l)) q = seen w q).
    { intros step l. induction l as [|e t IH]; intros w0 A0 H; [reflexivity|]. cbn [loop]. destruct (H w0 e A0) as [A1 S1].
      destruct (step w0 e) as [w1 [u| |]]; cbn [fst] in *; try exact S1. rewrite (IH w1 A1 H). exact S1. }
    assert (P : forall r w, apart mine w -> apart mine (fst (read_push grow (Field o f) r w)) /\ seen (fst (read_push grow (Field o f) r w)) q = seen w q).
    { intros r w0 A0. split; [exact (changes_apart mine o _ _ (read_push_changes grow o f r w0) A0)|]. destruct r as [v| |]; try reflexivity.
      exact (gives_other mine f _ w0 _ o q A0 (append_gives grow _ v w0) N). }
    assert (L : seen (fst (read_list (Field o f) n w)) q = seen w q).
    { unfold read_list. destruct (seq_for_each string_list_step [] n) as [tmp [u| |]]; try reflexivity.
      exact (gives_other mine f _ w _ o q A (fresh_gives _ _ _ _) N). }
    unfold read_field. destruct f; try exact L.
    - destruct (is_string n); [|exact L]. exact (gives_other mine _ _ w _ o q A (append_gives grow _ _ w) N).
    - unfold seq_for_each. destruct n as [tag s|tag l|tag l]; try reflexivity. apply K; [exact A|]. intros w0 e A0. apply P. exact A0.
    - unfold seq_for_each. destruct n as [tag s|tag l|tag l]; try reflexivity. apply K; [exact A|]. intros w0 e A0. apply P. exact A0.
  Qed.

  (** Whether an entry succeeds does not depend on what is in the object. *)
  Lemma fill_outcome {V} (dec : node -> res V) n m m' : snd (fill dec n m) = snd (fill dec n m').
  Proof.
    unfold fill, read_map, map_for_each. destruct n as [tag s|tag l|tag l]; try reflexivity.
    revert m m'. induction l as [|e t IH]; intros m m'; [reflexivity|]. cbn [loop]. unfold read_pair at 1 3.
    destruct (to_str (fst e)); try reflexivity. destruct (dec (snd e)); try reflexivity. cbn [put_in]. apply IH.
  Qed.
  Lemma api_quiet a e : api_field (fst e) = None ->
    snd (api_assign_into a e) = snd (api_assign_into new_api e) /\
    forall f, In f api_fields -> api_list (fst (api_assign_into a e)) f = api_list a f.
  Proof.
    unfold api_field. intros H.
    assert (K : forall b, (forall f, api_list b f = api_list a f) -> forall f, In f api_fields -> api_list b f = api_list a f) by auto.
    assert (T : forall r r' (a0 : api), (match r, r' with Ok b, Ok _ => forall f, api_list b f = api_list a f | Err, Err | Panic, Panic => True | _, _ => False end) ->
      snd (whole a r) = snd (whole a0 r') /\ forall f, In f api_fields -> api_list (fst (whole a r)) f = api_list a f).
    { intros [b| |] [b'| |] a0 G; try destruct G; split; try reflexivity; auto. }
    assert (L : forall {B} (s : B -> api -> api) (r r' : B * res unit), snd r = snd r' -> (forall b f, api_list (s b a) f = api_list a f) ->
      snd (inside (fun x => s x a) r) = snd (inside (fun x => s x new_api) r') /\ forall f, In f api_fields -> api_list (fst (inside (fun x => s x a) r)) f = api_list a f).
    { intros B s r r' E G. unfold inside. cbn [fst snd]. split; [exact E|]. intros f _. apply G. }
    unfold api_assign_into. destruct (is_string (fst e)) eqn:S; cbn [negb] in *.
    2: { apply T. unfold api_assign. rewrite S. cbn [negb]. destruct (to_scalar (fst e)); cbn [bind]; auto; intros []; reflexivity. }
    destruct (String.eqb (value (fst e)) KeyProtocols) eqn:E1; [discriminate H|].
    destruct (String.eqb (value (fst e)) KeyMediaType) eqn:E2; [discriminate H|].
    destruct (String.eqb (value (fst e)) KeyDocumentation) eqn:E3; [discriminate H|].
    destruct (String.eqb (value (fst e)) KeySecuredBy) eqn:E4; [discriminate H|]. clear H.
    destruct (String.eqb (value (fst e)) KeyUses) eqn:E5; [apply (L _ a_set_uses); [apply fill_outcome|intros b []; reflexivity]|].
    destruct (String.eqb (value (fst e)) KeySecuritySchemes) eqn:E6; [apply (L _ a_set_securitySchemes); [apply fill_outcome|intros b []; reflexivity]|].
    destruct (String.eqb (value (fst e)) KeyBaseURIParams) eqn:E7; [apply (L _ a_set_baseURIParameters); [apply fill_outcome|intros b []; reflexivity]|].
    destruct (String.eqb (value (fst e)) KeyTraits) eqn:E8; [apply (L _ a_set_traits); [apply fill_outcome|intros b []; reflexivity]|].
    destruct (String.eqb (value (fst e)) KeyAnnotationTypes) eqn:E9; [apply (L _ a_set_annotationTypes); [apply fill_outcome|intros b []; reflexivity]|].
    destruct (String.eqb (value (fst e)) KeyResourceTypes) eqn:E10; [apply (L _ a_set_resourceTypes); [apply fill_outcome|intros b []; reflexivity]|].
    destruct (String.eqb (value (fst e)) KeyTypes || String.eqb (value (fst e)) KeySchemas)%bool eqn:E11; [apply (L _ a_set_types); [apply fill_outcome|intros b []; reflexivity]|].
    apply T. unfold api_assign. rewrite S, E1, E2, E3, E4, E5, E6, E7, E8, E9, E10, E11. cbn [negb].
    destruct (value (fst e)) as [|c k] eqn:Ek; [exact I|].
    destruct (Ascii.eqb c "("); [destruct (read_annotation (snd e)); cbn [bind]; auto; intros []; reflexivity|].
    destruct (Ascii.eqb c "/"); [intros []; reflexivity|].
    destruct (String.eqb (String c k) KeyTitle); [unfold as_string, assign_with; destruct (to_str (snd e)); cbn; auto; intros []; reflexivity|].
    destruct (String.eqb (String c k) KeyVersion); [unfold as_string_ptr, assign_with; destruct (to_str (snd e)); cbn; auto; intros []; reflexivity|].
    destruct (String.eqb (String c k) KeyBaseURI); [unfold as_string_ptr, assign_with; destruct (to_str (snd e)); cbn; auto; intros []; reflexivity|].
    destruct (String.eqb (String c k) KeyDescription); [unfold as_string_ptr, assign_with; destruct (to_str (snd e)); cbn; auto; intros []; reflexivity|].
    destruct (to_scalar (fst e)); cbn [bind]; auto; intros []; reflexivity.
  Qed.
  Definition lists_of (w : world) (o : nat) (l : list field) (val : field -> option (list elem)) : Prop :=
    forall f, In f l -> seen w (Field o f) = val f.

  Lemma api_entry_value mine o w a e : apart mine w -> lists_of w o api_fields (api_list a) ->
    snd (api_entry grow o w e) = snd (api_assign_into a e) /\
    lists_of (fst (api_entry grow o w e)) o api_fields (api_list (fst (api_assign_into a e))).
  Proof.
    intros A R. unfold api_entry. destruct (api_field (fst e)) as [f|] eqn:E.
    2: { destruct (api_quiet a e E) as [Q1 Q2]. cbn [fst snd]. split; [symmetry; exact Q1|]. intros f I. rewrite (Q2 f I). exact (R f I). }
    pose proof (ap_use _ _ A) as U.
    unfold api_field in E. destruct (is_string (fst e)) eqn:S; cbn [negb] in E; [|discriminate E].
    assert (G : forall f a', In f api_fields -> seen (fst (read_field grow TyAny o f (snd e) w)) (Field o f) = api_list a' f ->
      (forall g, g <> f -> api_list a' g = api_list a g) -> lists_of (fst (read_field grow TyAny o f (snd e) w)) o api_fields (api_list a')).
    { intros g a' Ig Eg O h Ih. destruct (field_eqb h g) eqn:Q; [apply field_eqb_eq in Q; subst h; exact Eg|].
      assert (Nh : h <> g) by (intros ->; rewrite (proj2 (field_eqb_eq g g) eq_refl) in Q; discriminate Q).
      rewrite (other_of_read mine TyAny o g (snd e) w (Field o h) A) by congruence. rewrite (O h Nh). exact (R h Ih). }
    destruct (String.eqb (value (fst e)) KeyProtocols) eqn:E1.
    { injection E as <-. apply String.eqb_eq in E1.
      destruct (read_list_value (Field o FProtocols) (snd e) w (a_protocols a) U (R FProtocols (or_introl eq_refl))) as [V1 V2].
      assert (X : api_assign_into a e = whole a (do x <- run_assign (as_string_list (snd e) (a_protocols a)); Ok (a_set_protocols x a))).
      { unfold api_assign_into, api_assign. rewrite S, E1. reflexivity. }
      rewrite X. split; [etransitivity; [exact V1|]|apply G; [left; reflexivity|etransitivity; [exact V2|]|]].
      - destruct (as_string_list (snd e) (a_protocols a)) as [l [[]| |]]; reflexivity.
      - unfold as_string_list. destruct (seq_for_each string_list_step [] (snd e)) as [tmp [u| |]]; reflexivity.
      - intros g N. destruct (run_assign (as_string_list (snd e) (a_protocols a))) as [l| |]; try reflexivity. destruct g; try reflexivity. contradiction. }
    destruct (String.eqb (value (fst e)) KeyMediaType) eqn:E2.
    { injection E as <-. apply String.eqb_eq in E2.
      destruct (media_value TyAny o (snd e) w (a_mediaType a) U (R FMediaTypes (or_intror (or_introl eq_refl)))) as [V1 V2].
      assert (X : api_assign_into a e = whole a (do x <- read_media (snd e) (a_mediaType a); Ok (a_set_mediaType x a))).
      { unfold api_assign_into, api_assign. rewrite S, E2. reflexivity. }
      rewrite X. split; [etransitivity; [exact V1|]|apply G; [right; left; reflexivity|etransitivity; [exact V2|]|]].
      - destruct (read_media (snd e) (a_mediaType a)) as [l| |]; reflexivity.
      - destruct (read_media (snd e) (a_mediaType a)) as [l| |]; reflexivity.
      - intros g N. destruct (read_media (snd e) (a_mediaType a)) as [l| |]; try reflexivity. destruct g; try reflexivity. contradiction. }
    destruct (String.eqb (value (fst e)) KeyDocumentation) eqn:E3.
    { injection E as <-. apply String.eqb_eq in E3.
      destruct (docs_value TyAny o (snd e) w (a_documentation a) U (R FDocumentation (or_intror (or_intror (or_intror (or_introl eq_refl)))))) as [V1 V2].
      assert (X : api_assign_into a e = inside (fun x => a_set_documentation x a) (docs_in (snd e) (a_documentation a))).
      { unfold api_assign_into. rewrite S, E3. reflexivity. }
      rewrite X. split; [exact V1|apply G; [right; right; right; left; reflexivity|exact V2|]]. intros g N. destruct g; try reflexivity. contradiction. }
    destruct (String.eqb (value (fst e)) KeySecuredBy) eqn:E4; [|discriminate E].
    injection E as <-. apply String.eqb_eq in E4.
    destruct (read_list_value (Field o FSecuredBy) (snd e) w (a_securedBy a) U (R FSecuredBy (or_intror (or_intror (or_introl eq_refl))))) as [V1 V2].
    assert (X : api_assign_into a e = whole a (do x <- run_assign (as_string_list (snd e) (a_securedBy a)); Ok (a_set_securedBy x a))).
    { unfold api_assign_into, api_assign. rewrite S, E4. reflexivity. }
    rewrite X. split; [etransitivity; [exact V1|]|apply G; [right; right; left; reflexivity|etransitivity; [exact V2|]|]].
    - destruct (as_string_list (snd e) (a_securedBy a)) as [l [[]| |]]; reflexivity.
    - unfold as_string_list. destruct (seq_for_each string_list_step [] (snd e)) as [tmp [u| |]]; reflexivity.
    - intros g N. destruct (run_assign (as_string_list (snd e) (a_securedBy a))) as [l| |]; try reflexivity. destruct g; try reflexivity. contradiction.
  Qed.

  Lemma api_entry_changes o w e : changes o w (fst (api_entry grow o w e)).
  Proof. unfold api_entry. destruct (api_field (fst e)); [apply read_field_changes|apply ch_none]. Qed.

  Lemma api_value mine o n : forall w a, apart mine w -> lists_of w o api_fields (api_list a) ->
    snd (read_api grow o n w) = snd (api_into n a) /\ lists_of (fst (read_api grow o n w)) o api_fields (api_list (fst (api_into n a))).
  Proof.
    unfold read_api, api_into, map_for_each. destruct n as [tag s|tag l|tag l]; try (intros w a A R; split; [reflexivity|exact R]).
    induction l as [|e t IH]; intros w a A R; [split; [reflexivity|exact R]|]. cbn [loop].
    destruct (api_entry_value mine o w a e A R) as [V1 V2]. pose proof (changes_apart mine o _ _ (api_entry_changes o w e) A) as A1.
    destruct (api_entry grow o w e) as [w1 r1]. destruct (api_assign_into a e) as [a1 r2]. cbn [fst snd] in *. subst r2.
    destruct r1 as [[]| |]; [exact (IH w1 a1 A1 V2)| |]; (split; [reflexivity|exact V2]).
  Qed.

  (** *** Types *)
  Definition file_list (s : spec dtype) : option (list elem) := match s with SFile l _ _ => strs l | _ => None end.

  Lemma spec_outcome s s' k v : same_spec s s' = true -> (String.eqb k KeyFileTypes = false \/ forall l mn mx, s <> SFile l mn mx) ->
    (String.eqb k KeyProperties = false \/ forall p mn mx ad di dv, s <> SObject p mn mx ad di dv) ->
    match spec_assign hat s k v, spec_assign hat s' k v with
    | None, None => True
    | Some (Ok t), Some (Ok _) => file_list t = file_list s /\ same_spec t s = true
    | Some Err, Some Err | Some Panic, Some Panic => True
    | _, _ => False
    end.
  Proof.
    intros E NF NP. destruct s as [|u mn mx it|f|ft mn mx|f mn mx mu|f mn mx mu|ps mn mx ad di dv|p mn mx],
      s' as [|u' mn' mx' it'|f'|ft' mn' mx'|f' mn' mx' mu'|f' mn' mx' mu'|ps' mn' mx' ad' di' dv'|p' mn' mx']; try discriminate E; cbn [spec_assign].
    - exact I.
    - destruct (String.eqb k KeyUniqueItems); [unfold as_bool, assign_with; destruct (to_bool v); cbn; auto|].
      destruct (String.eqb k KeyMinItems); [unfold to_uint, assign_with; destruct (to_int v); cbn; auto|].
      destruct (String.eqb k KeyMaxItems); [unfold to_uint, assign_with; destruct (to_int v); cbn; auto|].
      destruct (String.eqb k KeyItems); [destruct (hat v); cbn; auto|exact I].
    - destruct (String.eqb k KeyFormat); [destruct (date_format_hat v); cbn; auto|exact I].
    - destruct NF as [NF|NF]; [|exfalso; exact (NF ft mn mx eq_refl)]. rewrite NF.
      destruct (String.eqb k KeyMinLength); [unfold to_uint, assign_with; destruct (to_int v); cbn; auto|].
      destruct (String.eqb k KeyMaxLength); [unfold to_uint, assign_with; destruct (to_int v); cbn; auto|exact I].
    - destruct (String.eqb k KeyMinimum); [unfold as_int64_ptr, assign_with; destruct (to_int v); cbn; auto|].
      destruct (String.eqb k KeyMaximum); [unfold as_int64_ptr, assign_with; destruct (to_int v); cbn; auto|].
      destruct (String.eqb k KeyFormat); [destruct (integer_format_hat v); cbn; auto|].
      destruct (String.eqb k KeyMultipleOf); [unfold as_float64_ptr, assign_with; destruct (to_float v); cbn; auto|exact I].
    - destruct (String.eqb k KeyMinimum); [unfold as_float64_ptr, assign_with; destruct (to_float v); cbn; auto|].
      destruct (String.eqb k KeyMaximum); [unfold as_float64_ptr, assign_with; destruct (to_float v); cbn; auto|].
      destruct (String.eqb k KeyFormat); [destruct (number_format_hat v); cbn; auto|].
      destruct (String.eqb k KeyMultipleOf); [unfold as_float64_ptr, assign_with; destruct (to_float v); cbn; auto|exact I].
    - destruct NP as [NP|NP]; [|exfalso; exact (NP ps mn mx ad di dv eq_refl)]. rewrite NP.
      destruct (String.eqb k KeyMinProperties); [unfold as_uint_ptr, assign_with; destruct (to_int v); cbn; auto|].
      destruct (String.eqb k KeyMaxProperties); [unfold as_uint_ptr, assign_with; destruct (to_int v); cbn; auto|].
      destruct (String.eqb k KeyAddtlProps); [unfold as_bool, assign_with; destruct (to_bool v); cbn; auto|].
      destruct (String.eqb k KeyDiscriminator); [unfold as_string_ptr, assign_with; destruct (to_str v); cbn; auto|].
      destruct (String.eqb k KeyDiscriminatorVal); [cbn; auto|exact I].
    - destruct (String.eqb k KeyPattern); [unfold as_string_ptr, assign_with; destruct (to_str v); cbn; auto|].
      destruct (String.eqb k KeyMinLength); [unfold to_uint, assign_with; destruct (to_int v); cbn; auto|].
      destruct (String.eqb k KeyMaxLength); [unfold as_uint_ptr, assign_with; destruct (to_int v); cbn; auto|exact I].
  Qed.

  Lemma base_outcome b b' key v :
    match base_assign b key v, base_assign b' key v with
    | Ok b1, Ok _ => b_kind b1 = b_kind b | Err, Err | Panic, Panic => True | _, _ => False end.
  Proof. unfold base_assign. destruct (String.eqb (value key) KeyType || String.eqb (value key) KeySchema)%bool; [destruct (to_str v); cbn; auto|reflexivity]. Qed.

  Lemma ext_outcome b b' x x' fs fs' key v : String.eqb (value key) KeyFacets = false ->
    match ext_assign hat b x fs key v, ext_assign hat b' x' fs' key v with
    | Ok (b1, _, _), Ok _ => b_kind b1 = b_kind b | Err, Err | Panic, Panic => True | _, _ => False end.
  Proof.
    intros NF. unfold ext_assign. rewrite NF.
    destruct (String.eqb (value key) KeyDisplayName); [unfold as_string_ptr, assign_with; destruct (to_str v); cbn; auto|].
    destruct (String.eqb (value key) KeyDescription); [unfold as_string_ptr, assign_with; destruct (to_str v); cbn; auto|].
    destruct (String.eqb (value key) KeyXML); [destruct (xml_unmarshal v new_xml); cbn; auto|].
    pose proof (base_outcome b b' key v) as B.
    assert (D : match (do b1 <- base_assign b key v; Ok (b1, x, fs)), (do b1 <- base_assign b' key v; Ok (b1, x', fs')) with
                | Ok (b1, _, _), Ok _ => b_kind b1 = b_kind b | Err, Err | Panic, Panic => True | _, _ => False end).
    { destruct (base_assign b key v), (base_assign b' key v); cbn [bind]; auto. }
    destruct (is_string key); [|exact D]. unfold annotations_in. destruct (value key) as [|c k]; [exact I|].
    destruct (Ascii.eqb c "("); [|exact D]. destruct (read_annotation v); cbn; auto.
  Qed.

  Lemma type_quiet d e : shaped d -> type_field (d_kind d) (fst e) = None ->
    snd (type_assign_into d e) = snd (type_assign_into (new_type (d_kind d)) e) /\
    (forall f, type_list (fst (type_assign_into d e)) f = type_list d f) /\
    d_kind (fst (type_assign_into d e)) = d_kind d /\ shaped (fst (type_assign_into d e)).
  Proof.
    intros Sh H.
    assert (T : forall (r r' : res dtype) (d0 : dtype), match r, r' with Ok d1, Ok _ => (forall f, type_list d1 f = type_list d f) /\ d_kind d1 = d_kind d /\ shaped d1
                                | Err, Err | Panic, Panic => True | _, _ => False end ->
      snd (whole d r) = snd (whole d0 r') /\ (forall f, type_list (fst (whole d r)) f = type_list d f) /\ d_kind (fst (whole d r)) = d_kind d /\ shaped (fst (whole d r))).
    { intros [d1| |] [d2| |] d0 G; try destruct G; cbn [whole fst snd]; auto. }
    destruct d as [b|b x fs c s].
    - assert (N : exists b', new_type (d_kind (TBase b)) = TBase b').
      { unfold shaped in Sh. destruct (new_type (d_kind (TBase b))) as [b'|]; [exists b'; reflexivity|discriminate Sh]. }
      destruct N as [b' N]. rewrite N. cbn [type_assign_into]. apply T. cbn [type_assign].
      pose proof (base_outcome b b' (fst e) (snd e)) as B. destruct (base_assign b (fst e) (snd e)) as [b1| |], (base_assign b' (fst e) (snd e)) as [b2| |]; try exact B.
      cbn [bind]. split; [reflexivity|]. split; [exact B|]. unfold shaped in *. unfold d_kind in *; cbn [d_base] in *. rewrite B.
      destruct (new_type (b_kind b)); [reflexivity|discriminate Sh].
    - assert (N : exists s', new_type (d_kind (TExt b x fs c s)) = TExt (new_base (b_kind b)) new_ext anew new_common s' /\ same_spec s s' = true).
      { unfold shaped in Sh. unfold d_kind in *; cbn [d_base] in *. destruct (b_kind b); cbn [new_type] in *; try discriminate Sh; eexists; (split; [reflexivity|exact Sh]). }
      destruct N as [s' [N Es]]. unfold type_field in H. rewrite N in *.
      assert (Sh' : forall x1 f1 c1, shaped (TExt b x1 f1 c1 s)) by (intros; exact Sh).
      destruct (String.eqb (value (fst e)) KeyEnum) eqn:K1; [discriminate H|].
      assert (NF : String.eqb (value (fst e)) KeyFileTypes = false \/ forall l mn mx, s <> SFile l mn mx).
      { destruct s as [| | |ft mn mx| | | |]; try (right; intros; discriminate). destruct s'; try discriminate Es.
        destruct (String.eqb (value (fst e)) KeyFileTypes); [discriminate H|left; reflexivity]. }
      clear H. cbn [type_assign_into]. rewrite K1. change (b_kind (new_base (b_kind b))) with (b_kind b).
      destruct (String.eqb (value (fst e)) KeyExamples) eqn:K2.
      { unfold inside. cbn [fst snd]. split; [apply fill_outcome|]. repeat split. exact Sh. }
      destruct (String.eqb (value (fst e)) KeyFacets) eqn:K3.
      { unfold inside. cbn [fst snd]. split; [apply fill_outcome|]. repeat split. exact Sh. }
      assert (P : (String.eqb (value (fst e)) KeyProperties = false \/ forall p mn mx ad di dv, s <> SObject p mn mx ad di dv) ->
        match type_assign hat (TExt b x fs c s) e, type_assign hat (TExt (new_base (b_kind b)) new_ext anew new_common s') e with
        | Ok d1, Ok _ => (forall f, type_list d1 f = type_list (TExt b x fs c s) f) /\ d_kind d1 = d_kind (TExt b x fs c s) /\ shaped d1
        | Err, Err | Panic, Panic => True | _, _ => False end).
      { intros NP. cbn [type_assign]. rewrite K1, K2. change (b_kind (new_base (b_kind b))) with (b_kind b).
        destruct (String.eqb (value (fst e)) KeyExample).
        { destruct (has_example (b_kind b)); [|exact I]. destruct (read_ex (b_kind b) (snd e)); cbn [bind]; auto. }
        destruct (String.eqb (value (fst e)) KeyRequired).
        { unfold as_bool, assign_with. destruct (to_bool (snd e)); cbn; auto. }
        pose proof (spec_outcome s s' (value (fst e)) (snd e) Es NF NP) as O.
        destruct (spec_assign hat s (value (fst e)) (snd e)) as [[t| |]|], (spec_assign hat s' (value (fst e)) (snd e)) as [[t'| |]|]; try exact O; cbn [bind]; try (exfalso; exact O).
        - destruct O as [O1 O2]. split; [intros []; try reflexivity; exact O1|]. split; [reflexivity|]. unfold shaped in *. unfold d_kind in *; cbn [d_base] in *.
          destruct (new_type (b_kind b)) as [|b0 x0 f0 c0 s0]; [discriminate Sh|]. cbn [same_shape] in *. 
          pose proof (same_shape_trans (TExt b x fs c t) (TExt b x fs c s) (TExt b0 x0 f0 c0 s0) O2 Sh) as Q. exact Q.
        - pose proof (ext_outcome b (new_base (b_kind b)) x new_ext fs anew (fst e) (snd e) K3) as Q.
          destruct (ext_assign hat b x fs (fst e) (snd e)) as [[[b1 x1] f1]| |], (ext_assign hat (new_base (b_kind b)) new_ext anew (fst e) (snd e)) as [[[b2 x2] f2]| |]; try exact Q.
          cbn [bind]. split; [reflexivity|]. split; [exact Q|]. unfold shaped in *. unfold d_kind in *; cbn [d_base] in *. rewrite Q. exact Sh. }
      destruct s as [|u mn mx it|f|ft mn mx|f mn mx mu|f mn mx mu|ps mn mx ad di dv|p mn mx];
        destruct s' as [|u' mn' mx' it'|f'|ft' mn' mx'|f' mn' mx' mu'|f' mn' mx' mu'|ps' mn' mx' ad' di' dv'|p' mn' mx']; try discriminate Es;
        try (apply T; apply P; right; intros; discriminate).
      destruct (String.eqb (value (fst e)) KeyProperties) eqn:K4; [|apply T; apply P; left; reflexivity].
      unfold inside. cbn [fst snd]. split; [apply fill_outcome|]. repeat split. exact Sh.
  Qed.

  Lemma type_entry_value mine o w d e : apart mine w -> shaped d -> lists_of w o type_fields (type_list d) ->
    snd (type_entry grow (d_kind d) o w e) = snd (type_assign_into d e) /\
    lists_of (fst (type_entry grow (d_kind d) o w e)) o type_fields (type_list (fst (type_assign_into d e))) /\
    d_kind (fst (type_assign_into d e)) = d_kind d /\ shaped (fst (type_assign_into d e)).
  Proof.
    intros A Sh R. unfold type_entry. destruct (type_field (d_kind d) (fst e)) as [f|] eqn:E.
    2: { destruct (type_quiet d e Sh E) as [Q1 [Q2 Q3]]. cbn [fst snd]. split; [symmetry; exact Q1|]. split; [|exact Q3]. intros f I. rewrite (Q2 f). exact (R f I). }
    pose proof (ap_use _ _ A) as U.
    assert (G : forall f d', In f type_fields -> seen (fst (read_field grow (d_kind d) o f (snd e) w)) (Field o f) = type_list d' f ->
      (forall g, g <> f -> type_list d' g = type_list d g) -> lists_of (fst (read_field grow (d_kind d) o f (snd e) w)) o type_fields (type_list d')).
    { intros g d' Ig Eg O h Ih. destruct (field_eqb h g) eqn:Q; [apply field_eqb_eq in Q; subst h; exact Eg|].
      assert (Nh : h <> g) by (intros ->; rewrite (proj2 (field_eqb_eq g g) eq_refl) in Q; discriminate Q).
      rewrite (other_of_read mine (d_kind d) o g (snd e) w (Field o h) A) by congruence. rewrite (O h Nh). exact (R h Ih). }
    destruct d as [b|b x fs c s].
    { exfalso. unfold type_field in E. unfold shaped in Sh. destruct (new_type (d_kind (TBase b))); [discriminate E|discriminate Sh]. }
    assert (N : exists s', new_type (d_kind (TExt b x fs c s)) = TExt (new_base (b_kind b)) new_ext anew new_common s' /\ same_spec s s' = true).
    { unfold shaped in Sh. unfold d_kind in *. cbn [d_base] in *. destruct (b_kind b); cbn [new_type] in *; try discriminate Sh; eexists; (split; [reflexivity|exact Sh]). }
    destruct N as [s' [N Es]]. unfold type_field in E. rewrite N in E.
    destruct (String.eqb (value (fst e)) KeyEnum) eqn:K1.
    - injection E as <-. apply String.eqb_eq in K1.
      assert (X : type_assign_into (TExt b x fs c s) e =
        inside (fun l => TExt b x fs (mkCom (c_def c) (c_example c) (c_examples c) l) s) (enum_in (b_kind b) (snd e) (c_enum c))).
      { cbn [type_assign_into]. rewrite K1. reflexivity. }
      rewrite X. destruct (enum_value (b_kind b) o (snd e) w (c_enum c) U (R FEnum (or_intror (or_introl eq_refl)))) as [V1 V2].
      split; [exact V1|]. split; [|split; [reflexivity|exact Sh]].
      apply G; [right; left; reflexivity|exact V2|]. intros g Ng. destruct g; try reflexivity. contradiction.
    - destruct s' as [| | |ft' mn' mx'| | | |]; try discriminate E. destruct s as [| | |ft mn mx| | | |]; try discriminate Es.
      destruct (String.eqb (value (fst e)) KeyFileTypes) eqn:K2; [|discriminate E]. injection E as <-. apply String.eqb_eq in K2.
      assert (X : type_assign_into (TExt b x fs c (SFile ft mn mx)) e =
        whole (TExt b x fs c (SFile ft mn mx)) (do v <- run_assign (as_string_list (snd e) ft); Ok (TExt b x fs c (SFile v mn mx)))).
      { cbn [type_assign_into type_assign]. rewrite K2. cbn [spec_assign String.eqb Ascii.eqb Bool.eqb andb]. 
        destruct (run_assign (as_string_list (snd e) ft)); reflexivity. }
      rewrite X. destruct (read_list_value (Field o FFileTypes) (snd e) w ft U (R FFileTypes (or_introl eq_refl))) as [V1 V2].
      split; [etransitivity; [exact V1|]; destruct (as_string_list (snd e) ft) as [l [[]| |]]; reflexivity|].
      split; [apply G; [left; reflexivity|etransitivity; [exact V2|]|]|].
      + unfold as_string_list. destruct (seq_for_each string_list_step [] (snd e)) as [tmp [u| |]]; reflexivity.
      + intros g Ng. destruct (run_assign (as_string_list (snd e) ft)) as [l| |]; try reflexivity. destruct g; try reflexivity. contradiction.
      + destruct (run_assign (as_string_list (snd e) ft)) as [l| |]; cbn [bind whole fst]; (split; [reflexivity|exact Sh]).
  Qed.

  Lemma type_entry_changes kd o w e : changes o w (fst (type_entry grow kd o w e)).
  Proof. unfold type_entry. destruct (type_field kd (fst e)); [apply read_field_changes|apply ch_none]. Qed.

  Lemma type_value mine o n : forall w d, apart mine w -> shaped d -> lists_of w o type_fields (type_list d) ->
    snd (read_type grow (d_kind d) o n w) = snd (type_into n d) /\
    lists_of (fst (read_type grow (d_kind d) o n w)) o type_fields (type_list (fst (type_into n d))).
  Proof.
    unfold read_type, type_into. destruct (is_string n).
    - intros w d A Sh R. split; [reflexivity|]. intros f If. cbn [fst]. rewrite (R f If). destruct d; reflexivity.
    - destruct n as [tag s|tag l|tag l]; try (intros w d A Sh R; split; [reflexivity|exact R]).
      induction l as [|e t IH]; intros w d A Sh R; [split; [reflexivity|exact R]|]. cbn [loop].
      destruct (type_entry_value mine o w d e A Sh R) as [V1 [V2 [V3 V4]]]. pose proof (changes_apart mine o _ _ (type_entry_changes (d_kind d) o w e) A) as A1.
      destruct (type_entry grow (d_kind d) o w e) as [w1 r1]. destruct (type_assign_into d e) as [d1 r2]. cbn [fst snd] in *. subst r2.
      destruct r1 as [[]| |]; [rewrite <- V3; exact (IH w1 d1 A1 V4 V2)| |]; (split; [reflexivity|exact V2]).
  Qed.
End Value.
