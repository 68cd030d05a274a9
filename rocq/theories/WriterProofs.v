(** Proofs about WriteRAML, headers and parsing (C55-C57). *)
From Coq Require Import SpecFloat.
From Verif Require Import Base Num OMap OMapSpec Keys Yaml Values Assign Meta Out Doc DataType Marshal Api Library Writer.

(** The bytes of a list of pieces. *)
Definition text_of (ps : list string) : string := String.concat "" ps.

(** A destination with room for [k] bytes. *)
Definition limit (k : nat) : writer :=
  fun before p => let room := (k - String.length (text_of before))%nat in if (String.length p <=? room)%nat then None else Some room.

(** Every piece is taken. *)
Definition takes_all (w : writer) (ps : list string) : Prop := forall before p rest, ps = before ++ p :: rest -> w before p = None.

Lemma append_assoc a b c : ((a ++ b) ++ c = a ++ (b ++ c))%string.
Proof. induction a as [|x a IH]; cbn; [reflexivity|]. rewrite IH. reflexivity. Qed.

Lemma append_empty a : (a ++ "" = a)%string.
Proof. induction a as [|x a IH]; cbn; [reflexivity|]. rewrite IH. reflexivity. Qed.

Lemma append_length a b : String.length (a ++ b)%string = (String.length a + String.length b)%nat.
Proof. induction a as [|x a IH]; cbn; [reflexivity|]. rewrite IH. reflexivity. Qed.

Lemma append_cancel a b c : (a ++ b = a ++ c)%string -> b = c.
Proof. induction a as [|x a IH]; cbn; [auto|]. intros H. injection H as H. auto. Qed.

Lemma text_cons p ps : text_of (p :: ps) = (p ++ text_of ps)%string.
Proof. unfold text_of. destruct ps; cbn; [symmetry; apply append_empty|reflexivity]. Qed.

Lemma text_app ps qs : text_of (ps ++ qs) = (text_of ps ++ text_of qs)%string.
Proof. induction ps as [|p ps IH]; [reflexivity|]. cbn [app]. rewrite !text_cons, IH, append_assoc. reflexivity. Qed.

Lemma cut k p : exists r, p = (substring 0 k p ++ r)%string.
Proof.
  revert k. induction p as [|c p IH]; intros k; [exists ""; destruct k; reflexivity|]. destruct k as [|k]; [exists (String c p); reflexivity|].
  destruct (IH k) as [r Hr]. exists r. cbn. rewrite <- Hr. reflexivity.
Qed.

Lemma cut_app k a b : (String.length a <= k)%nat -> substring 0 k (a ++ b) = (a ++ substring 0 (k - String.length a) b)%string.
Proof.
  revert k. induction a as [|c a IH]; intros k H; cbn in *; [rewrite Nat.sub_0_r; reflexivity|]. destruct k as [|k]; [lia|]. cbn. rewrite IH by lia. reflexivity.
Qed.

Lemma cut_short k a b : (k <= String.length a)%nat -> substring 0 k (a ++ b) = substring 0 k a.
Proof.
  revert k. induction a as [|c a IH]; intros k H; cbn in *; [assert (k = 0)%nat by lia; subst; destruct b; reflexivity|]. destruct k as [|k]; [reflexivity|].
  cbn. rewrite IH by lia. reflexivity.
Qed.

Section Sending.
  (** What a run of writes leaves. *)
  Lemma send_cases w ps : forall s, accepted s = true ->
    (accepted (send w s ps) = true /\ calls (send w s ps) = calls s ++ ps /\ bytes (send w s ps) = (bytes s ++ text_of ps)%string /\
     forall before p rest, ps = before ++ p :: rest -> w (calls s ++ before) p = None) \/
    (accepted (send w s ps) = false /\ exists before p rest k, ps = before ++ p :: rest /\ w (calls s ++ before) p = Some k /\
     (forall before' p' rest', before = before' ++ p' :: rest' -> w (calls s ++ before') p' = None) /\
     calls (send w s ps) = calls s ++ before ++ [p] /\ bytes (send w s ps) = (bytes s ++ text_of before ++ substring 0 k p)%string).
  Proof.
    induction ps as [|p ps IH]; intros s Hs.
    - left. cbn. rewrite app_nil_r, append_empty. repeat split; auto. intros [|b before] q rest E; discriminate E.
    - cbn [send]. unfold send1. destruct (w (calls s) p) as [k|] eqn:Ew.
      + right. cbn [accepted calls bytes]. split; [reflexivity|]. exists [], p, ps, k. rewrite app_nil_r. repeat split; auto.
        intros [|b before'] q rest' E; discriminate E.
      + cbn [accepted]. destruct (IH (mkSent (calls s ++ [p]) (bytes s ++ p) true) eq_refl) as [(A & B & C & D)|(A & before & q & rest & k & E & H1 & H2 & H3 & H4)]; cbn [calls bytes] in *.
        * left. split; [exact A|]. split; [rewrite B, <- app_assoc; reflexivity|]. split; [rewrite C, append_assoc, text_cons; reflexivity|].
          intros [|b before] q rest E; injection E as <- E; [rewrite app_nil_r; exact Ew|]. specialize (D before q rest E). rewrite <- app_assoc in D. exact D.
        * right. split; [exact A|]. exists (p :: before), q, rest, k. rewrite <- !app_assoc in *. cbn [app] in *. split; [rewrite E; reflexivity|]. split; [exact H1|].
          split; [|split; [rewrite H3; reflexivity|rewrite H4, !append_assoc, text_cons, append_assoc; reflexivity]].
          intros [|b before'] q' rest' E'; injection E' as <- E'; [rewrite app_nil_r; exact Ew|]. specialize (H2 before' q' rest' E'). rewrite <- app_assoc in H2. exact H2.
  Qed.

  Lemma send_ok w ps : takes_all w ps -> send w nothing_sent ps = mkSent ps (text_of ps) true.
  Proof.
    intros H. destruct (send_cases w ps nothing_sent eq_refl) as [(A & B & C & D)|(A & before & p & rest & k & E & H1 & _)].
    - destruct (send w nothing_sent ps) as [c b a]. cbn in *. congruence.
    - cbn in H1. rewrite (H before p rest E) in H1. discriminate H1.
  Qed.

  (** All bytes that arrive are the first bytes of the text. *)
  Lemma send_prefix w ps : exists r, text_of ps = (bytes (send w nothing_sent ps) ++ r)%string.
  Proof.
    destruct (send_cases w ps nothing_sent eq_refl) as [(A & B & C & D)|(A & before & p & rest & k & E & H1 & H2 & H3 & H4)].
    - exists "". rewrite C, append_empty. reflexivity.
    - rewrite H4. cbn [bytes nothing_sent append]. destruct (cut k p) as [r Hr]. exists (r ++ text_of rest)%string. rewrite E, text_app, text_cons.
      rewrite !append_assoc. f_equal. rewrite <- append_assoc, <- Hr. reflexivity.
  Qed.

  Lemma send_accepted w ps : accepted (send w nothing_sent ps) = true <-> takes_all w ps.
  Proof.
    split; [|intros H; rewrite (send_ok w ps H); reflexivity]. intros H before p rest E.
    destruct (send_cases w ps nothing_sent eq_refl) as [(A & B & C & D)|(A & _)]; [exact (D before p rest E)|congruence].
  Qed.

  Lemma limit_takes k ps : takes_all (limit k) ps <-> (String.length (text_of ps) <= k)%nat \/ Forall (fun p => p = "") ps.
  Proof.
    unfold takes_all, limit. split.
    - intros H. induction ps as [|p ps IH] using rev_ind; [left; cbn; lia|].
      assert (H' := H ps p [] eq_refl). cbv zeta in H'. destruct (Nat.leb_spec (String.length p) (k - String.length (text_of ps))) as [L|L]; [|discriminate H'].
      destruct IH as [IH|IH].
      { intros before q rest E. apply (H before q (rest ++ [p])). rewrite E, <- app_assoc. reflexivity. }
      + left. rewrite text_app, append_length, text_cons, append_length. cbn. lia.
      + assert (T : text_of ps = "") by (clear - IH; induction IH as [|q l -> _ I]; [reflexivity|]; rewrite text_cons, I; reflexivity).
        left. rewrite text_app, T, text_cons, append_length, append_length. rewrite T in L. cbn in *. lia.
    - intros H before p rest E. cbv zeta. destruct (Nat.leb_spec (String.length p) (k - String.length (text_of before))) as [L|L]; [reflexivity|].
      exfalso. rewrite E in H. destruct H as [H|H].
      + rewrite text_app, append_length, text_cons, append_length in H. lia.
      + apply Forall_app in H as [_ H]. inversion H as [|x y Hx Hy]; subst. cbn in L. lia.
  Qed.

  (** A destination that is full after [k] bytes has exactly the first [k] bytes. *)
  Lemma limit_bytes k ps : (k < String.length (text_of ps))%nat ->
    accepted (send (limit k) nothing_sent ps) = false /\ bytes (send (limit k) nothing_sent ps) = substring 0 k (text_of ps).
  Proof.
    intros H. destruct (send_cases (limit k) ps nothing_sent eq_refl) as [(A & B & C & D)|(A & before & p & rest & j & E & H1 & H2 & H3 & H4)].
    - exfalso. assert (T : takes_all (limit k) ps) by (intros before p rest E; exact (D before p rest E)). apply limit_takes in T as [T|T]; [lia|].
      assert (X : text_of ps = "") by (clear - T; induction T as [|q l -> _ I]; [reflexivity|]; rewrite text_cons, I; reflexivity). rewrite X in H. cbn in H. lia.
    - split; [exact A|]. rewrite H4. cbn [bytes nothing_sent append calls app] in *.
      assert (T : (String.length (text_of before) <= k)%nat).
      { assert (T : takes_all (limit k) before) by (intros b q r Eb; exact (H2 b q r Eb)). apply limit_takes in T as [T|T]; [exact T|].
        assert (X : text_of before = "") by (clear - T; induction T as [|q l -> _ I]; [reflexivity|]; rewrite text_cons, I; reflexivity). rewrite X. cbn. lia. }
      unfold limit in H1. cbv zeta in H1. destruct (Nat.leb_spec (String.length p) (k - String.length (text_of before))) as [L|L]; [discriminate H1|]. injection H1 as <-.
      rewrite E, text_app, text_cons. rewrite cut_app by exact T. f_equal. rewrite cut_short by lia. reflexivity.
  Qed.
End Sending.

(** ** Headers *)

Lemma to_header_inj m m' : to_header m = to_header m' -> m = m'.
Proof.
  unfold to_header. destruct (String.eqb_spec m TypeRoot) as [->|N], (String.eqb_spec m' TypeRoot) as [->|N']; intros H; auto; try discriminate H.
  apply append_cancel in H. apply append_cancel in H. exact H.
Qed.

Section Writing.
  Context {F : FloatIO} {E : Encoder}.

  (** All pieces of a library. *)
  Definition lib_pieces (n : node) : list string := HeaderLibrary :: pieces None n.

  Lemma lib_write_send l w n : lib_marshal l = Ok n -> lib_write l w = finish (send w nothing_sent (lib_pieces n)).
  Proof.
    intros H. unfold lib_write, lib_pieces. cbn [send]. rewrite H. destruct (accepted (send1 w nothing_sent HeaderLibrary)) eqn:A; [reflexivity|].
    unfold finish. rewrite A. reflexivity.
  Qed.

  Lemma api_written_ok a w s : api_write a w = (s, Ok tt) ->
    exists n, api_marshal a = Ok n /\ takes_all w (pieces (Some header_base) n) /\ bytes s = text_of (pieces (Some header_base) n).
  Proof.
    unfold api_write. destruct (api_marshal a) as [n| |] eqn:M; try discriminate. intros H. exists n. split; [reflexivity|].
    unfold finish in H. destruct (accepted (send w nothing_sent (pieces (Some header_base) n))) eqn:A; [|discriminate H].
    apply send_accepted in A. split; [exact A|]. rewrite (send_ok _ _ A) in H. injection H as <-. reflexivity.
  Qed.

  Lemma lib_written_ok l w s : lib_write l w = (s, Ok tt) ->
    exists n, lib_marshal l = Ok n /\ takes_all w (lib_pieces n) /\ bytes s = text_of (lib_pieces n).
  Proof.
    intros H. destruct (lib_marshal l) as [n| |] eqn:M.
    - rewrite (lib_write_send l w n M) in H. exists n. split; [reflexivity|].
      unfold finish in H. destruct (accepted (send w nothing_sent (lib_pieces n))) eqn:A; [|discriminate H].
      apply send_accepted in A. split; [exact A|]. rewrite (send_ok _ _ A) in H. injection H as <-. reflexivity.
    - exfalso. unfold lib_write in H. rewrite M in H. destruct (accepted (send1 w nothing_sent HeaderLibrary)); discriminate H.
    - exfalso. unfold lib_write in H. rewrite M in H. destruct (accepted (send1 w nothing_sent HeaderLibrary)); discriminate H.
  Qed.
End Writing.
