(** C101: several documents in one reader. *)
From Coq Require Import Lia Arith.
From Verif Require Import Base Num OMap OMapSpec Keys Yaml Values Assign Meta Out Doc DataType Marshal Api Library Writer Reader ReaderSpec.

Local Notation s_ := str_node.
Local Notation m_ := (Map TMap).

Section Facts.
  Context {F : FloatIO} {S : Scanner} (L : lawful S).

  Lemma str_app_nil (s : string) : (s ++ "")%string = s.
  Proof. induction s as [|c s IH]; cbn [append]; [reflexivity|rewrite IH; reflexivity]. Qed.
  Lemma str_app_assoc (a b c : string) : ((a ++ b) ++ c)%string = (a ++ (b ++ c))%string.
  Proof. induction a as [|x a IH]; cbn [append]; [reflexivity|rewrite IH; reflexivity]. Qed.
  Lemma concat_cons p ps : String.concat "" (p :: ps) = (p ++ String.concat "" ps)%string.
  Proof. destruct ps as [|q ps]; cbn [String.concat]; [rewrite str_app_nil; reflexivity|reflexivity]. Qed.

  Lemma fetch_text ps : forall got, (fst (fetch got ps) ++ String.concat "" (snd (fetch got ps)))%string = (got ++ String.concat "" ps)%string.
  Proof.
    induction ps as [|p ps IH]; intros got; cbn [fetch]; destruct (enough got) eqn:E; cbn [fst snd]; try reflexivity.
    rewrite IH, concat_cons, str_app_assoc. reflexivity.
  Qed.

  Lemma fetch_short ps : forall got, enough (fst (fetch got ps)) = false -> snd (fetch got ps) = [].
  Proof.
    induction ps as [|p ps IH]; intros got; cbn [fetch]; destruct (enough got) eqn:E; cbn [fst snd]; intros H; try congruence; try reflexivity.
    exact (IH _ H).
  Qed.

  Lemma fetch_less ps : forall got, List.length (snd (fetch got ps)) <= List.length ps.
  Proof.
    induction ps as [|p ps IH]; intros got; cbn [fetch]; destruct (enough got) eqn:E; cbn [fst snd List.length]; try lia.
    specialize (IH (got ++ p)%string). lia.
  Qed.

  Lemma decode_text r : fst (decode_one r) = if enough (text r) then found (text r) else if fails r then SBad else found (text r).
  Proof.
    unfold decode_one, text. pose proof (fetch_text (reads r) "") as H1. pose proof (fetch_short (reads r) "") as H2.
    destruct (fetch "" (reads r)) as [got rest]; cbn [fst snd] in *. cbn [append] in H1. rewrite <- H1.
    destruct (enough got) eqn:E.
    - rewrite (enough_stays S L _ _ E), (rest_ignored S L _ _ E). reflexivity.
    - rewrite (H2 eq_refl). cbn [String.concat]. rewrite str_app_nil, E. reflexivity.
  Qed.

  Lemma decode_fails r : fails (snd (decode_one r)) = fails r.
  Proof. unfold decode_one. destruct (fetch "" (reads r)) as [got rest]. reflexivity. Qed.

  Lemma decode_end f : decode_one (mkReader [] f) = (if f then SBad else SEmpty, mkReader [] f).
  Proof.
    unfold decode_one. cbn [reads fetch]. rewrite (nothing_is_not_enough S L). cbn [fails]. rewrite (nothing_is_not_enough S L), (nothing_is_empty S L). reflexivity.
  Qed.

  Lemma decode_shrinks r : reads r <> [] -> List.length (reads (snd (decode_one r))) < List.length (reads r).
  Proof.
    intros Hne. unfold decode_one. destruct (reads r) as [|p ps]; [congruence|].
    cbn [fetch]. rewrite (nothing_is_not_enough S L). pose proof (fetch_less ps ("" ++ p)%string) as H.
    destruct (fetch ("" ++ p) ps) as [got rest]; cbn [snd reads List.length] in *. lia.
  Qed.

  Lemma concat_app a b : String.concat "" (a ++ b)%list = (String.concat "" a ++ String.concat "" b)%string.
  Proof.
    induction a as [|p a IH]; [reflexivity|]. change ((p :: a) ++ b)%list with (p :: (a ++ b))%list. rewrite !concat_cons, IH, str_app_assoc. reflexivity.
  Qed.

  Lemma fetch_one g : forall got rest, enough (got ++ String.concat "" g) = true ->
    (forall k, k < List.length g -> enough (got ++ String.concat "" (firstn k g)) = false) ->
    fetch got (g ++ rest) = ((got ++ String.concat "" g)%string, rest).
  Proof.
    induction g as [|p g IH]; intros got rest He Hk.
    - cbn [String.concat] in *. rewrite str_app_nil in *. change ([] ++ rest)%list with rest. destruct rest; cbn [fetch]; rewrite He; reflexivity.
    - change ((p :: g) ++ rest)%list with (p :: (g ++ rest))%list. cbn [fetch].
      pose proof (Hk 0 ltac:(cbn [List.length]; lia)) as H0. cbn [firstn String.concat] in H0. rewrite str_app_nil in H0. rewrite H0.
      rewrite concat_cons in *. rewrite <- str_app_assoc in *. apply IH; [exact He|].
      intros k Hlt. specialize (Hk (Datatypes.S k) ltac:(cbn [List.length]; lia)). cbn [firstn] in Hk. rewrite concat_cons, <- str_app_assoc in Hk. exact Hk.
  Qed.

  Lemma fetch_last g : forall got, (forall k, enough (got ++ String.concat "" (firstn k g)) = false) ->
    fetch got g = ((got ++ String.concat "" g)%string, []).
  Proof.
    induction g as [|p g IH]; intros got Hk.
    - pose proof (Hk 0) as H0. cbn [firstn String.concat] in *. rewrite str_app_nil in *. cbn [fetch]. rewrite H0. reflexivity.
    - cbn [fetch]. pose proof (Hk 0) as H0. cbn [firstn String.concat] in H0. rewrite str_app_nil in H0. rewrite H0.
      rewrite concat_cons, <- str_app_assoc. apply IH. intros k. specialize (Hk (Datatypes.S k)). cbn [firstn] in Hk. rewrite concat_cons, <- str_app_assoc in Hk. exact Hk.
  Qed.

  Lemma decode_group g rest f : pieces_of_one g -> decode_one (mkReader (g ++ rest) f) = (found (String.concat "" g), mkReader rest f).
  Proof.
    intros [He Hk]. unfold decode_one. cbn [reads]. rewrite (fetch_one g "" rest He Hk). cbn [append fails]. rewrite He. reflexivity.
  Qed.

  Lemma decode_last g : pieces_of_last g -> decode_one (mkReader g false) = (found (String.concat "" g), mkReader [] false).
  Proof.
    intros Hk. unfold decode_one. cbn [reads]. rewrite (fetch_last g "" Hk). cbn [append fails]. destruct (enough (String.concat "" g)); reflexivity.
  Qed.

  Lemma decode_doc d ds f : enough d = true -> decode_one (mkReader (d :: ds) f) = (found d, mkReader ds f).
  Proof.
    intros E. apply (decode_group [d] ds f). split; [exact E|]. intros k Hk. destruct k as [|k]; [exact (nothing_is_not_enough S L)|cbn [List.length] in Hk; lia].
  Qed.

  (** Calls on an exhausted reader *)
  Lemma at_end {A} (parse : stream -> A) f n :
    calls_on (fun r => let '(s, r') := decode_one r in (parse s, r')) n (mkReader [] f) = (repeat (parse (if f then SBad else SEmpty)) n, mkReader [] f).
  Proof.
    induction n as [|n IH]; cbn [calls_on repeat]; [reflexivity|].
    rewrite decode_end, IH. reflexivity.
  Qed.

  Lemma one_each_cons {A} (parse : stream -> A) d docs n : one_for_each parse (d :: docs) (Datatypes.S n) = parse (found d) :: one_for_each parse docs n.
  Proof. unfold one_for_each. cbn [seq map nth_error]. rewrite <- seq_shift, map_map. reflexivity. Qed.

  Lemma one_each_nil {A} (parse : stream -> A) n : one_for_each parse [] n = repeat (parse SEmpty) n.
  Proof.
    unfold one_for_each. generalize 0. induction n as [|n IH]; intros k; cbn [repeat seq map]; [reflexivity|].
    rewrite (IH (Datatypes.S k)). destruct k; reflexivity.
  Qed.

  Lemma one_each {A} (parse : stream -> A) groups last : Forall pieces_of_one groups -> pieces_of_last last -> forall n,
    fst (calls_on (fun r => let '(s, r') := decode_one r in (parse s, r')) n (mkReader (List.concat groups ++ last) false)) =
    one_for_each parse (map (String.concat "") groups ++ [String.concat "" last]) n.
  Proof.
    intros H Hl. induction groups as [|g groups IH]; intros n; (destruct n as [|n]; [reflexivity|]).
    - cbn [List.concat map]. change ([] ++ last)%list with last. change ([] ++ [String.concat "" last])%list with [String.concat "" last].
      rewrite one_each_cons, one_each_nil. cbn [calls_on]. rewrite (decode_last _ Hl), at_end. reflexivity.
    - inversion H as [|g' gs' Hg Hgs]; subst. cbn [List.concat map]. change ((?a :: ?b) ++ ?c)%list with (a :: (b ++ c))%list.
      rewrite <- app_assoc. cbn [app]. rewrite one_each_cons. cbn [calls_on]. rewrite (decode_group _ _ _ Hg). specialize (IH Hgs n).
      destruct (calls_on _ n (mkReader _ false)) as [l r2]; cbn [fst] in *. rewrite IH. reflexivity.
  Qed.

  (** The same of a reader that fails, before that. *)
  Lemma one_each_before {A} (parse : stream -> A) rest f groups : Forall pieces_of_one groups ->
    calls_on (fun r => let '(s, r') := decode_one r in (parse s, r')) (List.length groups) (mkReader (List.concat groups ++ rest) f) =
    (one_for_each parse (map (String.concat "") groups) (List.length groups), mkReader rest f).
  Proof.
    intros H. induction groups as [|g groups IH]; [reflexivity|].
    inversion H as [|g' gs' Hg Hgs]; subst. cbn [List.length List.concat map]. rewrite <- app_assoc, one_each_cons. cbn [calls_on].
    rewrite (decode_group _ _ _ Hg), (IH Hgs). reflexivity.
  Qed.

  (** A call that says nothing but errors on an exhausted reader gives an error within as many calls as there are reads, and one. *)
  Lemma ends {A} (parse : stream -> A) (P : A -> Prop) (f : bool) : P (parse (if f then SBad else SEmpty)) -> forall k ps, List.length ps <= k ->
    exists i p, i <= k /\
    nth_error (fst (calls_on (fun r => let '(s, r') := decode_one r in (parse s, r')) (Datatypes.S k) (mkReader ps f))) i = Some p /\ P p.
  Proof.
    intros HP. induction k as [|k IH]; intros ps Hl.
    - destruct ps as [|p ps]; [|cbn [List.length] in Hl; lia]. exists 0, (parse (if f then SBad else SEmpty)).
      split; [lia|]. rewrite at_end. split; [reflexivity|exact HP].
    - destruct ps as [|p ps].
      + exists 0, (parse (if f then SBad else SEmpty)). split; [lia|]. rewrite at_end. split; [reflexivity|exact HP].
      + pose proof (decode_shrinks (mkReader (p :: ps) f)) as Hs. pose proof (decode_fails (mkReader (p :: ps) f)) as Hf.
        remember (Datatypes.S k) as k1 eqn:Ek. cbn [calls_on]. destruct (decode_one (mkReader (p :: ps) f)) as [s [ps' f']] eqn:ED.
        cbn [snd fails reads] in Hs, Hf. subst f'. assert (Hne : p :: ps <> []) by congruence. specialize (Hs Hne). cbn [List.length] in Hs, Hl.
        destruct (IH ps' ltac:(lia)) as [i [q [Hi [Hq HPq]]]]. subst k1.
        destruct (calls_on _ (Datatypes.S k) (mkReader ps' f)) as [l r2]; cbn [fst] in *.
        exists (Datatypes.S i), q. split; [lia|]. split; [exact Hq|exact HPq].
  Qed.
End Facts.

(** C101 does not hold.  Whatever the scanner does, when one Read hands over two API documents the second is lost: the second call says that the
    stream has ended. *)
Theorem C101_refuted (F : FloatIO) (S : Scanner) (L : lawful S) d1 d2 n a :
  enough d1 = true -> found d2 = SDoc n -> node_tag n <> TNull -> api_unmarshal n new_api = Ok a ->
  fst (calls_on read_api_doc 2 (mkReader [(d1 ++ d2)%string] false)) = [parse_api (found d1); Parsed None (Some PEof)] /\
  fst (calls_on read_api_doc 2 (mkReader [(d1 ++ d2)%string] false)) <> one_for_each parse_api [d1; d2] 2.
Proof.
  intros E1 E2 Ht Hu.
  assert (H : fst (calls_on read_api_doc 2 (mkReader [(d1 ++ d2)%string] false)) = [parse_api (found d1); Parsed None (Some PEof)]).
  { cbn [calls_on]. unfold read_api_doc. rewrite (decode_doc L _ _ _ (enough_stays S L _ d2 E1)), (decode_end L). cbn [fst].
    rewrite (rest_ignored S L _ d2 E1). reflexivity. }
  split; [exact H|]. rewrite H. unfold one_for_each. cbn [seq map nth_error]. rewrite E2. unfold parse_api at 3, decode.
  destruct (node_tag n) eqn:T; try (exfalso; apply Ht; reflexivity); rewrite Hu; intros HH; inversion HH.
Qed.
Print Assumptions C101_refuted.

(** With libraries the loss is not even reported: the second call, and each call after it, gives an empty library and no error, so that a
    program that reads until there is an error never stops. *)
Theorem C101_library_refuted (F : FloatIO) (S : Scanner) (L : lawful S) d1 d2 k :
  enough d1 = true ->
  fst (calls_on read_library (Datatypes.S k) (mkReader [(d1 ++ d2)%string] false)) =
  parse_library (found d1) :: repeat (Parsed (Some new_library) None) k.
Proof.
  intros E1. cbn [calls_on]. unfold read_library at 1. rewrite (decode_doc L _ _ _ (enough_stays S L _ d2 E1)).
  unfold read_library. rewrite (at_end L parse_library false k). cbn [fst]. rewrite (rest_ignored S L _ d2 E1). reflexivity.
Qed.
Print Assumptions C101_library_refuted.

(** Nor is it noticed that what follows the first document is no YAML at all. *)
Theorem C101_broken_refuted (F : FloatIO) (S : Scanner) (L : lawful S) d1 d2 k :
  enough d1 = true -> found d2 = SBad -> ~ is_failure (parse_api (found d1)) -> ~ is_failure (parse_library (found d1)) ->
  Forall (fun p => ~ is_failure p) (fst (calls_on read_api_doc k (mkReader [(d1 ++ d2)%string] false))) /\
  Forall (fun p => ~ is_failure p) (fst (calls_on read_library k (mkReader [(d1 ++ d2)%string] false))) /\
  nth_error (one_for_each parse_api [d1; d2] 2) 1 = Some (Parsed None (Some POther)) /\
  nth_error (one_for_each parse_library [d1; d2] 2) 1 = Some (Parsed None (Some POther)).
Proof.
  intros E1 E2 Ha Hl. split; [|split].
  - destruct k as [|k]; [constructor|]. cbn [calls_on]. unfold read_api_doc at 1. rewrite (decode_doc L _ _ _ (enough_stays S L _ d2 E1)).
    unfold read_api_doc. rewrite (at_end L parse_api false k). cbn [fst]. constructor; [rewrite (rest_ignored S L _ d2 E1); exact Ha|].
    apply Forall_forall. intros x Hx. apply repeat_spec in Hx. subst x. intros HH. exact HH.
  - destruct k as [|k]; [constructor|]. rewrite (C101_library_refuted F S L d1 d2 k E1). constructor; [exact Hl|].
    apply Forall_forall. intros x Hx. apply repeat_spec in Hx. subst x. intros HH. exact HH.
  - unfold one_for_each. cbn [seq map nth_error]. rewrite E2. split; reflexivity.
Qed.
Print Assumptions C101_broken_refuted.

(** What does hold.  The first call: its result is that of the text, however the reader cuts it into pieces; what follows the first document
    changes nothing, and neither does a reader that fails after it.  Where the reader fails before there is enough, that is reported. *)
Theorem C101_first_partial (F : FloatIO) (S : Scanner) (L : lawful S) r :
  (fails r = false \/ enough (text r) = true ->
   fst (read_api_doc r) = parse_api (found (text r)) /\ fst (read_library r) = parse_library (found (text r))) /\
  (fails r = true -> enough (text r) = false ->
   fst (read_api_doc r) = Parsed None (Some POther) /\ fst (read_library r) = Parsed None (Some POther)) /\
  (forall s f, enough (text r) = true -> fst (read_api_doc (mkReader (reads r ++ [s]) f)) = fst (read_api_doc r) /\
                                         fst (read_library (mkReader (reads r ++ [s]) f)) = fst (read_library r)).
Proof.
  pose proof (decode_text L r) as H. unfold read_api_doc, read_library.
  assert (Hx : forall A (p : stream -> A) q, fst (let '(s, r') := decode_one q in (p s, r')) = p (fst (decode_one q))) by (intros A p q; destruct (decode_one q); reflexivity).
  rewrite !Hx. split; [|split].
  - intros Ho. assert (H1 : fst (decode_one r) = found (text r)) by (rewrite H; destruct Ho as [Ho|Ho]; rewrite Ho; [destruct (enough (text r))|]; reflexivity).
    rewrite H1. split; reflexivity.
  - intros Hf He. rewrite H, He, Hf. split; reflexivity.
  - intros s f E. rewrite !Hx.
    assert (Ht : text (mkReader (reads r ++ [s]) f) = (text r ++ s)%string) by (unfold text; cbn [reads]; rewrite concat_app; reflexivity).
    rewrite (decode_text L (mkReader (reads r ++ [s]) f)), Ht, (enough_stays S L _ s E), (rest_ignored S L _ s E), H, E. split; reflexivity.
Qed.
Print Assumptions C101_first_partial.

(** Where no Read hands over more than the rest of one document, the calls do give one document after another, and then the end of the stream; of
    a reader that fails, they give the documents that come before that, and leave the rest. *)
Theorem C101_one_for_each_partial (F : FloatIO) (S : Scanner) (L : lawful S) groups last :
  Forall pieces_of_one groups ->
  (pieces_of_last last -> forall n,
   fst (calls_on read_api_doc n (mkReader (List.concat groups ++ last) false)) = one_for_each parse_api (map (String.concat "") groups ++ [String.concat "" last]) n /\
   fst (calls_on read_library n (mkReader (List.concat groups ++ last) false)) = one_for_each parse_library (map (String.concat "") groups ++ [String.concat "" last]) n) /\
  (forall f,
   calls_on read_api_doc (List.length groups) (mkReader (List.concat groups ++ last) f) =
   (one_for_each parse_api (map (String.concat "") groups) (List.length groups), mkReader last f) /\
   calls_on read_library (List.length groups) (mkReader (List.concat groups ++ last) f) =
   (one_for_each parse_library (map (String.concat "") groups) (List.length groups), mkReader last f)).
Proof.
  intros H. split.
  - intros Hl n. split; [exact (one_each L parse_api groups last H Hl n)|exact (one_each L parse_library groups last H Hl n)].
  - intros f. split; [exact (one_each_before parse_api last f groups H)|exact (one_each_before parse_library last f groups H)].
Qed.
Print Assumptions C101_one_for_each_partial.

(** Reading API documents until there is an error stops, after at most as many calls as the reader has Reads left, and one. *)
Theorem C101_stops_partial (F : FloatIO) (S : Scanner) (L : lawful S) r :
  exists i p, i <= List.length (reads r) /\
  nth_error (fst (calls_on read_api_doc (Datatypes.S (List.length (reads r))) r)) i = Some p /\ is_error p.
Proof.
  destruct r as [ps f]. cbn [reads].
  assert (HP : is_error (parse_api (if f then SBad else SEmpty))) by (destruct f; exact I).
  exact (ends L parse_api is_error f HP (List.length ps) ps (le_n _)).
Qed.
Print Assumptions C101_stops_partial.

(** A reader that fails is never taken for one that has ended, by either function: the failure comes up within as many calls. *)
Theorem C101_failure_partial (F : FloatIO) (S : Scanner) (L : lawful S) r :
  fails r = true ->
  (exists i p, i <= List.length (reads r) /\
   nth_error (fst (calls_on read_api_doc (Datatypes.S (List.length (reads r))) r)) i = Some p /\ is_failure p) /\
  (exists i p, i <= List.length (reads r) /\
   nth_error (fst (calls_on read_library (Datatypes.S (List.length (reads r))) r)) i = Some p /\ is_failure p).
Proof.
  destruct r as [ps f]. cbn [reads fails]. intros ->. split.
  - exact (ends L parse_api is_failure true I (List.length ps) ps (le_n _)).
  - exact (ends L parse_library is_failure true I (List.length ps) ps (le_n _)).
Qed.
Print Assumptions C101_failure_partial.

(** ** A scanner that meets the contract: a document ends with a semicolon *)
#[local] Instance toy : FloatIO := { float_of := fun _ s => None; float_text := fun _ => (TFloat, "0.5"%string) }.

Fixpoint has_end (s : string) : bool :=
  match s with EmptyString => false | String c r => if Ascii.eqb c ";" then true else has_end r end.
Definition doc_a : node := m_ [(s_ "title", s_ "A")].
Definition doc_b : node := m_ [(s_ "title", s_ "B")].
#[local] Instance toy_scanner : Scanner := {
  found := fun s => match s with
                    | EmptyString => SEmpty
                    | String c _ => if Ascii.eqb c "a" then SDoc doc_a else if Ascii.eqb c "b" then SDoc doc_b else SBad
                    end;
  enough := has_end }.

Lemma toy_lawful : lawful toy_scanner.
Proof.
  constructor; [reflexivity|reflexivity| |].
  - intros s t. cbn [enough toy_scanner]. induction s as [|c s IH]; cbn [has_end append]; [discriminate|]. destruct (Ascii.eqb c ";"); auto.
  - intros s t. cbn [enough found toy_scanner]. destruct s as [|c s]; [discriminate|]. intros _. reflexivity.
Qed.

Definition title_of (p : parsed api) : option string :=
  match p with Parsed (Some a) None => Some (a_title a) | _ => None end.

Example C101_nonvacuous :
  enough "a;" = true /\ found "b;" = SDoc doc_b /\ node_tag doc_b <> TNull /\ (exists a, api_unmarshal doc_b new_api = Ok a) /\
  map title_of (fst (calls_on read_api_doc 3 (mkReader ["a;b;"%string] false))) = [Some "A"%string; None; None] /\
  map title_of (fst (calls_on read_api_doc 3 (mkReader ["a;"%string; "b;"%string] false))) = [Some "A"%string; Some "B"%string; None] /\
  map title_of (fst (calls_on read_api_doc 2 (mkReader ["a"%string; ";"%string; "b;"%string] false))) = [Some "A"%string; Some "B"%string] /\
  found "x;" = SBad /\ ~ is_failure (parse_api (found "a;")).
Proof.
  split; [reflexivity|]. split; [reflexivity|]. split; [discriminate|]. split; [eexists; vm_compute; reflexivity|].
  repeat split; try (vm_compute; reflexivity). vm_compute. intros H; exact H.
Qed.

Example C101_pieces_nonvacuous :
  Forall pieces_of_one [["a"%string; ";"%string]; ["b;"%string]] /\ pieces_of_last ["a"%string; ""%string] /\
  map title_of (fst (calls_on read_api_doc 4 (mkReader (List.concat [["a"%string; ";"%string]; ["b;"%string]] ++ ["a"%string; ""%string]) false))) =
  [Some "A"%string; Some "B"%string; Some "A"%string; None].
Proof.
  split; [|split; [|vm_compute; reflexivity]].
  - repeat constructor; intros k Hk; cbn [List.length] in Hk; destruct k as [|[|k]]; try reflexivity; lia.
  - intros k. destruct k as [|[|k]]; try reflexivity. destruct k; reflexivity.
Qed.
