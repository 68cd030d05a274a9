(** The fields of a type definition as seen through its getters, and what one key of a mapping does to them. *)
From Coq Require Import SpecFloat.
From Verif Require Import Base Num OMap OMapSpec Keys Yaml Values Assign Formats Meta Out Xml Example DataType Marshal
  AssignProofs TypeFacts.

(** One name for each getter of the type interfaces (pkg/raml/type-*.go); Kind() is [d_kind]. *)
Inductive field : Type :=
| FType | FExtra | FDisplay | FDescr | FAnns | FXml | FRequired | FFacets
| FDefault | FExample | FExamples | FEnum
| FUnique | FMinItems | FMaxItems | FItems
| FFormat | FFileTypes | FMinLength | FMaxLength
| FMinimum | FMaximum | FMultipleOf
| FProps | FMinProps | FMaxProps | FAddl | FDiscr | FDiscrVal
| FPattern.

(** What a getter answers. *)
Inductive fval : Type :=
| VStr (s : string)
| VOptStr (o : option string)
| VBool (b : bool)
| VInt (z : Z)
| VOptInt (o : option Z)
| VOptFloat (o : option spec_float)
| VStrs (o : option (list string))
| VOptVal (o : option gval)
| VVals (o : option (list gval))
| VOptType (o : option dtype)
| VTypes (m : amap string dtype)
| VFacets (m : amap string (amap string dtype))
| VAnns (m : amap string untyped)
| VXml (o : option xml)
| VEx (o : option ex)
| VExs (m : amap string ex)
| VExtra (m : amap gkey gval).

(** ** Getters.  [None]: the type has no such getter. *)

Definition get_spec (f : field) (s : spec dtype) : option fval :=
  match s, f with
  | SArray u _ _ _, FUnique => Some (VBool u)
  | SArray _ mn _ _, FMinItems => Some (VInt mn)
  | SArray _ _ mx _, FMaxItems => Some (VInt mx)
  | SArray _ _ _ it, FItems => Some (VOptType it)
  | SDatetime fm, FFormat => Some (VOptStr fm)
  | SFile ft _ _, FFileTypes => Some (VStrs ft)
  | SFile _ mn _, FMinLength => Some (VInt mn)
  | SFile _ _ mx, FMaxLength => Some (VInt mx)
  | SInteger fm _ _ _, FFormat => Some (VOptStr fm)
  | SInteger _ mn _ _, FMinimum => Some (VOptInt mn)
  | SInteger _ _ mx _, FMaximum => Some (VOptInt mx)
  | SInteger _ _ _ mu, FMultipleOf => Some (VOptFloat mu)
  | SNumber fm _ _ _, FFormat => Some (VOptStr fm)
  | SNumber _ mn _ _, FMinimum => Some (VOptFloat mn)
  | SNumber _ _ mx _, FMaximum => Some (VOptFloat mx)
  | SNumber _ _ _ mu, FMultipleOf => Some (VOptFloat mu)
  | SObject ps _ _ _ _ _, FProps => Some (VTypes ps)
  | SObject _ mn _ _ _ _, FMinProps => Some (VOptInt mn)
  | SObject _ _ mx _ _ _, FMaxProps => Some (VOptInt mx)
  | SObject _ _ _ ad _ _, FAddl => Some (VBool ad)
  | SObject _ _ _ _ di _, FDiscr => Some (VOptStr di)
  | SObject _ _ _ _ _ dv, FDiscrVal => Some (VOptVal dv)
  | SString p _ _, FPattern => Some (VOptStr p)
  | SString _ mn _, FMinLength => Some (VInt mn)
  | SString _ _ mx, FMaxLength => Some (VOptInt mx)
  | _, _ => None
  end.

Definition getf (f : field) (d : dtype) : option fval :=
  match d with
  | TBase b =>
    match f with
    | FType => Some (VStr (b_schema b))
    | FExtra => Some (VExtra (b_extra b))
    | _ => None
    end
  | TExt b x fs c s =>
    match f with
    | FType => Some (VStr (b_schema b))
    | FExtra => Some (VExtra (b_extra b))
    | FDisplay => Some (VOptStr (x_display x))
    | FDescr => Some (VOptStr (x_descr x))
    | FAnns => Some (VAnns (x_anns x))
    | FXml => Some (VXml (x_xml x))
    | FRequired => Some (VBool (x_required x))
    | FFacets => Some (VFacets fs)
    | FDefault => Some (VOptVal (c_def c))
    | FExample => Some (VEx (c_example c))
    | FExamples => Some (VExs (c_examples c))
    | FEnum => Some (VVals (c_enum c))
    | _ => get_spec f s
    end
  end.

(** ** Writing one field *)

Definition set_spec (f : field) (v : fval) (s : spec dtype) : spec dtype :=
  match s, f, v with
  | SArray u mn mx it, FUnique, VBool u' => SArray u' mn mx it
  | SArray u mn mx it, FMinItems, VInt z => SArray u z mx it
  | SArray u mn mx it, FMaxItems, VInt z => SArray u mn z it
  | SArray u mn mx it, FItems, VOptType t => SArray u mn mx t
  | SDatetime fm, FFormat, VOptStr o => SDatetime o
  | SFile ft mn mx, FFileTypes, VStrs o => SFile o mn mx
  | SFile ft mn mx, FMinLength, VInt z => SFile ft z mx
  | SFile ft mn mx, FMaxLength, VInt z => SFile ft mn z
  | SInteger fm mn mx mu, FFormat, VOptStr o => SInteger o mn mx mu
  | SInteger fm mn mx mu, FMinimum, VOptInt o => SInteger fm o mx mu
  | SInteger fm mn mx mu, FMaximum, VOptInt o => SInteger fm mn o mu
  | SInteger fm mn mx mu, FMultipleOf, VOptFloat o => SInteger fm mn mx o
  | SNumber fm mn mx mu, FFormat, VOptStr o => SNumber o mn mx mu
  | SNumber fm mn mx mu, FMinimum, VOptFloat o => SNumber fm o mx mu
  | SNumber fm mn mx mu, FMaximum, VOptFloat o => SNumber fm mn o mu
  | SNumber fm mn mx mu, FMultipleOf, VOptFloat o => SNumber fm mn mx o
  | SObject ps mn mx ad di dv, FProps, VTypes m => SObject m mn mx ad di dv
  | SObject ps mn mx ad di dv, FMinProps, VOptInt o => SObject ps o mx ad di dv
  | SObject ps mn mx ad di dv, FMaxProps, VOptInt o => SObject ps mn o ad di dv
  | SObject ps mn mx ad di dv, FAddl, VBool b => SObject ps mn mx b di dv
  | SObject ps mn mx ad di dv, FDiscr, VOptStr o => SObject ps mn mx ad o dv
  | SObject ps mn mx ad di dv, FDiscrVal, VOptVal o => SObject ps mn mx ad di o
  | SString p mn mx, FPattern, VOptStr o => SString o mn mx
  | SString p mn mx, FMinLength, VInt z => SString p z mx
  | SString p mn mx, FMaxLength, VOptInt o => SString p mn o
  | _, _, _ => s
  end.

Definition setf (f : field) (v : fval) (d : dtype) : dtype :=
  match d with
  | TBase b =>
    match f, v with
    | FType, VStr s => TBase (mkBase s (b_kind b) (b_extra b))
    | FExtra, VExtra m => TBase (mkBase (b_schema b) (b_kind b) m)
    | _, _ => d
    end
  | TExt b x fs c s =>
    match f, v with
    | FType, VStr t => TExt (mkBase t (b_kind b) (b_extra b)) x fs c s
    | FExtra, VExtra m => TExt (mkBase (b_schema b) (b_kind b) m) x fs c s
    | FDisplay, VOptStr o => TExt b (mkExt o (x_descr x) (x_anns x) (x_xml x) (x_required x)) fs c s
    | FDescr, VOptStr o => TExt b (mkExt (x_display x) o (x_anns x) (x_xml x) (x_required x)) fs c s
    | FAnns, VAnns m => TExt b (mkExt (x_display x) (x_descr x) m (x_xml x) (x_required x)) fs c s
    | FXml, VXml o => TExt b (mkExt (x_display x) (x_descr x) (x_anns x) o (x_required x)) fs c s
    | FRequired, VBool r => TExt b (mkExt (x_display x) (x_descr x) (x_anns x) (x_xml x) r) fs c s
    | FFacets, VFacets m => TExt b x m c s
    | FDefault, VOptVal o => TExt b x fs (mkCom o (c_example c) (c_examples c) (c_enum c)) s
    | FExample, VEx o => TExt b x fs (mkCom (c_def c) o (c_examples c) (c_enum c)) s
    | FExamples, VExs m => TExt b x fs (mkCom (c_def c) (c_example c) m (c_enum c)) s
    | FEnum, VVals o => TExt b x fs (mkCom (c_def c) (c_example c) (c_examples c) o) s
    | _, _ => TExt b x fs c (set_spec f v s)
    end
  end.

(** Values that fit a getter. *)
Definition same_sort (v w : fval) : bool :=
  match v, w with
  | VStr _, VStr _ | VOptStr _, VOptStr _ | VBool _, VBool _ | VInt _, VInt _ | VOptInt _, VOptInt _
  | VOptFloat _, VOptFloat _ | VStrs _, VStrs _ | VOptVal _, VOptVal _ | VVals _, VVals _ | VOptType _, VOptType _
  | VTypes _, VTypes _ | VFacets _, VFacets _ | VAnns _, VAnns _ | VXml _, VXml _ | VEx _, VEx _ | VExs _, VExs _
  | VExtra _, VExtra _ => true
  | _, _ => false
  end.

Definition fits (f : field) (v : fval) (d : dtype) : Prop :=
  exists w, getf f d = Some w /\ same_sort v w = true.

Lemma field_dec (f g : field) : {f = g} + {f <> g}.
Proof. decide equality. Defined.

Definition field_eqb (f g : field) : bool := if field_dec f g then true else false.

Lemma getf_setf_same f v d : fits f v d -> getf f (setf f v d) = Some v.
Proof.
  intros [w [H E]]. destruct d as [b|b x fs c s]; destruct f; simpl in H; try discriminate;
    try (injection H as <-; destruct v; try discriminate; reflexivity);
    destruct s; simpl in H; try discriminate; injection H as <-; destruct v; try discriminate; reflexivity.
Qed.

Lemma get_set_spec_other f g v s : f <> g -> get_spec g (set_spec f v s) = get_spec g s.
Proof. destruct s; destruct f; try reflexivity; destruct v; try reflexivity; destruct g; reflexivity || congruence. Qed.

Lemma getf_spec_part g b x fs c s s' : get_spec g s' = get_spec g s ->
  getf g (TExt b x fs c s') = getf g (TExt b x fs c s).
Proof. destruct g; cbn [getf]; auto. Qed.

Lemma getf_setf_other f g v d : f <> g -> getf g (setf f v d) = getf g d.
Proof.
  intros H. destruct d as [b|b x fs c s].
  - destruct f; try reflexivity; destruct v; try reflexivity; destruct g; reflexivity || congruence.
  - destruct f; destruct v; cbn [setf];
      first [apply getf_spec_part; apply get_set_spec_other; exact H
            |destruct g; reflexivity || (exfalso; apply H; reflexivity)].
Qed.

Lemma d_kind_setf f v d : d_kind (setf f v d) = d_kind d.
Proof. destruct d as [b|b x fs c s]; destruct f; try reflexivity; destruct v; reflexivity. Qed.

(** A type is determined by its kind and its getters. *)
Lemma field_ext d d' : d_kind d = d_kind d' -> (forall f, getf f d = getf f d') -> d = d'.
Proof.
  intros Hk H. destruct d as [b|b x fs c s]; destruct d' as [b'|b' x' fs' c' s'];
    [|specialize (H FDisplay); discriminate|specialize (H FDisplay); discriminate|].
  - destruct b as [s k e], b' as [s' k' e']. pose proof (H FType) as H1. pose proof (H FExtra) as H2.
    simpl in *. unfold d_kind in Hk; simpl in Hk. congruence.
  - assert (b = b').
    { destruct b as [s0 k e], b' as [s0' k' e']. pose proof (H FType) as H1. pose proof (H FExtra) as H2.
      simpl in *. unfold d_kind in Hk; simpl in Hk. congruence. }
    assert (x = x').
    { destruct x as [x1 x2 x3 x4 x5], x' as [y1 y2 y3 y4 y5].
      pose proof (H FDisplay); pose proof (H FDescr); pose proof (H FAnns); pose proof (H FXml);
        pose proof (H FRequired). simpl in *. congruence. }
    assert (fs = fs') by (pose proof (H FFacets); simpl in *; congruence).
    assert (c = c').
    { destruct c as [x1 x2 x3 x4], c' as [y1 y2 y3 y4].
      pose proof (H FDefault); pose proof (H FExample); pose proof (H FExamples); pose proof (H FEnum).
      simpl in *. congruence. }
    assert (s = s').
    { pose proof (H FUnique); pose proof (H FMinItems); pose proof (H FMaxItems); pose proof (H FItems).
      pose proof (H FFormat); pose proof (H FFileTypes); pose proof (H FMinLength); pose proof (H FMaxLength).
      pose proof (H FMinimum); pose proof (H FMaximum); pose proof (H FMultipleOf); pose proof (H FProps).
      pose proof (H FMinProps); pose proof (H FMaxProps); pose proof (H FAddl); pose proof (H FDiscr).
      pose proof (H FDiscrVal); pose proof (H FPattern). clear H.
      destruct s; destruct s'; simpl in *; congruence. }
    congruence.
Qed.

(** ** What one key does *)

(** The field a facet key belongs to, by kind specific part. *)
Definition spec_target (s : spec dtype) (k : string) : option field :=
  match s with
  | SNone => None
  | SArray _ _ _ _ =>
    if String.eqb k "uniqueItems" then Some FUnique
    else if String.eqb k "minItems" then Some FMinItems
    else if String.eqb k "maxItems" then Some FMaxItems
    else if String.eqb k "items" then Some FItems else None
  | SDatetime _ => if String.eqb k "format" then Some FFormat else None
  | SFile _ _ _ =>
    if String.eqb k "fileTypes" then Some FFileTypes
    else if String.eqb k "minLength" then Some FMinLength
    else if String.eqb k "maxLength" then Some FMaxLength else None
  | SInteger _ _ _ _ | SNumber _ _ _ _ =>
    if String.eqb k "minimum" then Some FMinimum
    else if String.eqb k "maximum" then Some FMaximum
    else if String.eqb k "format" then Some FFormat
    else if String.eqb k "multipleOf" then Some FMultipleOf else None
  | SObject _ _ _ _ _ _ =>
    if String.eqb k "properties" then Some FProps
    else if String.eqb k "minProperties" then Some FMinProps
    else if String.eqb k "maxProperties" then Some FMaxProps
    else if String.eqb k "additionalProperties" then Some FAddl
    else if String.eqb k "discriminator" then Some FDiscr
    else if String.eqb k "discriminatorValue" then Some FDiscrVal else None
  | SString _ _ _ =>
    if String.eqb k "pattern" then Some FPattern
    else if String.eqb k "minLength" then Some FMinLength
    else if String.eqb k "maxLength" then Some FMaxLength else None
  end.

Definition common_target (k : string) : option field :=
  if String.eqb k "example" then Some FExample
  else if String.eqb k "examples" then Some FExamples
  else if String.eqb k "enum" then Some FEnum
  else if String.eqb k "required" then Some FRequired else None.

Definition ext_target (k : string) : option field :=
  if String.eqb k "displayName" then Some FDisplay
  else if String.eqb k "description" then Some FDescr
  else if String.eqb k "facets" then Some FFacets
  else if String.eqb k "xml" then Some FXml else None.

Definition base_target (k : string) : field :=
  if String.eqb k "type" || String.eqb k "schema" then FType else FExtra.

(** [None]: the empty key, on which the extended types panic *)
Definition target (d : dtype) (key : node) : option field :=
  let k := value key in
  match d with
  | TBase _ => Some (base_target k)
  | TExt _ _ _ _ s =>
    match common_target k with
    | Some f => Some f
    | None =>
      match spec_target s k with
      | Some f => Some f
      | None =>
        match ext_target k with
        | Some f => Some f
        | None =>
          if is_string key then
            match k with
            | EmptyString => None
            | String c _ => if Ascii.eqb c "(" then Some FAnns else Some (base_target k)
            end
          else Some (base_target k)
        end
      end
    end
  end.

Section Step.
  Context {F : FloatIO}.
  Variable rd : node -> res dtype.

  (** The new value of a field, from the kind of the type, the key, the node and the old value. *)
  Definition step (kd : dkind) (f : field) (key val : node) (old : fval) : res fval :=
    match f, old with
    | FType, _ => do s <- to_str val; Ok (VStr s)
    | FExtra, VExtra m => Ok (VExtra (kput (KStr (value key)) (GNode val) m))
    | FDisplay, _ | FDescr, _ | FDiscr, _ | FPattern, _ | FFormat, _ => do s <- to_str val; Ok (VOptStr (Some s))
    | FAnns, VAnns m => do a <- read_annotation val; Ok (VAnns (mput (value key) a m))
    | FXml, _ => do x <- xml_unmarshal val new_xml; Ok (VXml (Some x))
    | FRequired, _ | FUnique, _ | FAddl, _ => do b <- to_bool val; Ok (VBool b)
    | FFacets, VFacets m => do m' <- read_facets rd m val; Ok (VFacets m')
    | FExample, _ => if has_example kd then do e <- read_ex kd val; Ok (VEx (Some e)) else Err
    | FExamples, VExs m => do m' <- read_examples kd m val; Ok (VExs m')
    | FEnum, VVals l => do l' <- read_enum kd l val; Ok (VVals l')
    | FMinItems, _ | FMaxItems, _ | FMinLength, _ | FMaxLength, VInt _ =>
      do z <- to_int val; Ok (VInt (uint_of_int64 z))
    | FMinProps, _ | FMaxProps, _ | FMaxLength, _ =>
      do z <- to_int val; Ok (VOptInt (Some (uint_of_int64 z)))
    | FItems, _ => do t <- rd val; Ok (VOptType (Some t))
    | FFileTypes, VStrs l => do l' <- run_assign (as_string_list val l); Ok (VStrs l')
    | FMinimum, VOptInt _ | FMaximum, VOptInt _ => do z <- to_int val; Ok (VOptInt (Some z))
    | FMinimum, _ | FMaximum, _ | FMultipleOf, _ => do x <- to_float val; Ok (VOptFloat (Some x))
    | FProps, VTypes m => do m' <- read_properties rd m val; Ok (VTypes m')
    | FDiscrVal, _ => Ok (VOptVal (Some (GNode val)))
    | _, _ => Err
    end.

  Lemma run_assign_with {A B} (conv : node -> res A) (g : A -> B) v ptr :
    run_assign (assign_with conv g v ptr) = do a <- conv v; Ok (g a).
  Proof. unfold run_assign, assign_with. destruct (conv v); reflexivity. Qed.

  Definition step_in (d : dtype) (f : field) (key val : node) : res dtype :=
    match getf f d with
    | Some old => do v <- step (d_kind d) f key val old; Ok (setf f v d)
    | None => Err
    end.

  Lemma spec_assign_step b x fs c s key val f :
    spec_target s (value key) = Some f ->
    exists r, spec_assign rd s (value key) val = Some r /\
      (do s' <- r; Ok (TExt b x fs c s')) = step_in (TExt b x fs c s) f key val.
  Proof.
    intros H. destruct s; cbn [spec_target] in H;
      repeat match type of H with
      | (if ?c then _ else _) = _ =>
        let E := fresh "E" in destruct c eqn:E
      end; try discriminate; injection H as <-; eexists; (split;
        [ cbn [spec_assign]; repeat match goal with E : String.eqb _ _ = _ |- _ => rewrite E; clear E end; reflexivity
        | unfold step_in, as_bool, to_uint, as_uint_ptr, as_string_ptr, as_int64_ptr, as_float64_ptr;
          cbn [getf get_spec step];
          rewrite ?run_assign_with, ?date_format_hat_str, ?integer_format_hat_str, ?number_format_hat_str, ?bind_assoc;
          try reflexivity; try (match goal with |- bind ?a _ = bind ?a _ => destruct a; reflexivity end) ]).
  Qed.

  Lemma spec_assign_none s k val : spec_target s k = None -> spec_assign rd s k val = None.
  Proof.
    intros H. destruct s; cbn [spec_target] in H; cbn [spec_assign];
      repeat match type of H with
      | (if ?c then _ else _) = _ =>
        let E := fresh "E" in destruct c eqn:E; [discriminate|]
      end; reflexivity.
  Qed.

  (** assign, field by field *)
  Lemma type_assign_step d key val :
    type_assign rd d (key, val) =
    match target d key with
    | None => Panic
    | Some f => step_in d f key val
    end.
  Proof.
    destruct d as [b|b x fs c s].
    - unfold type_assign, target, base_target, base_assign, step_in; cbn [fst snd].
      destruct (String.eqb (value key) "type" || String.eqb (value key) "schema"); cbn [getf step];
        [destruct (to_str val)|]; reflexivity.
    - unfold type_assign, target, common_target; cbn [fst snd].
      destruct (String.eqb (value key) "example") eqn:E1.
      { unfold step_in; cbn [getf step]. change (d_kind (TExt b x fs c s)) with (b_kind b).
        destruct (has_example (b_kind b)); [destruct (read_ex (b_kind b) val)|]; reflexivity. }
      destruct (String.eqb (value key) "examples") eqn:E2.
      { unfold step_in; cbn [getf step]. change (d_kind (TExt b x fs c s)) with (b_kind b).
        destruct (read_examples (b_kind b) (c_examples c) val); reflexivity. }
      destruct (String.eqb (value key) "enum") eqn:E3.
      { unfold step_in; cbn [getf step]. change (d_kind (TExt b x fs c s)) with (b_kind b).
        destruct (read_enum (b_kind b) (c_enum c) val); reflexivity. }
      destruct (String.eqb (value key) "required") eqn:E4.
      { unfold step_in, as_bool; cbn [getf step]. rewrite run_assign_with. destruct (to_bool val); reflexivity. }
      destruct (spec_target s (value key)) as [f|] eqn:E5.
      { destruct (spec_assign_step b x fs c s key val f E5) as [r [Hr H]]. rewrite Hr. exact H. }
      rewrite spec_assign_none by exact E5. unfold ext_assign, ext_target.
      destruct (String.eqb (value key) "displayName") eqn:E6.
      { unfold step_in, as_string_ptr; cbn [getf step]. rewrite run_assign_with. destruct (to_str val); reflexivity. }
      destruct (String.eqb (value key) "description") eqn:E7.
      { unfold step_in, as_string_ptr; cbn [getf step]. rewrite run_assign_with. destruct (to_str val); reflexivity. }
      destruct (String.eqb (value key) "facets") eqn:E8.
      { unfold step_in; cbn [getf step]. destruct (read_facets rd fs val); reflexivity. }
      destruct (String.eqb (value key) "xml") eqn:E9.
      { unfold step_in; cbn [getf step]. destruct (xml_unmarshal val new_xml); reflexivity. }
      assert (Hb : (do r <- (do b' <- base_assign b key val; Ok (b', x, fs));
                    (let '(b', x', f') := r in Ok (TExt b' x' f' c s))) =
                   step_in (TExt b x fs c s) (base_target (value key)) key val).
      { unfold base_target, base_assign, step_in.
        destruct (String.eqb (value key) "type" || String.eqb (value key) "schema"); cbn [getf step];
          [destruct (to_str val)|]; reflexivity. }
      destruct (is_string key).
      + unfold annotations_in. destruct (value key) as [|a t] eqn:Ek; [reflexivity|].
        destruct (Ascii.eqb a "(").
        * unfold step_in; cbn [getf step]. rewrite Ek. destruct (read_annotation val); reflexivity.
        * rewrite <- Ek in *. exact Hb.
      + cbn [bind]. exact Hb.
  Qed.
End Step.

(** ** Shape: the kind specific part belongs to the kind *)

Definition same_spec (s s' : spec dtype) : bool :=
  match s, s' with
  | SNone, SNone | SArray _ _ _ _, SArray _ _ _ _ | SDatetime _, SDatetime _ | SFile _ _ _, SFile _ _ _
  | SInteger _ _ _ _, SInteger _ _ _ _ | SNumber _ _ _ _, SNumber _ _ _ _
  | SObject _ _ _ _ _ _, SObject _ _ _ _ _ _ | SString _ _ _, SString _ _ _ => true
  | _, _ => false
  end.

Definition same_shape (d d' : dtype) : bool :=
  match d, d' with
  | TBase _, TBase _ => true
  | TExt _ _ _ _ s, TExt _ _ _ _ s' => same_spec s s'
  | _, _ => false
  end.

Definition shaped (d : dtype) : Prop := same_shape d (new_type (d_kind d)) = true.

Lemma shaped_new k : shaped (new_type k).
Proof. destruct k; reflexivity. Qed.

Lemma same_shape_setf f v d : same_shape (setf f v d) d = true.
Proof.
  destruct d as [b|b x fs c s].
  - destruct f; try reflexivity; destruct v; reflexivity.
  - destruct f; destruct v; destruct s; reflexivity.
Qed.

Lemma same_shape_refl d : same_shape d d = true.
Proof. destruct d as [b|b x fs c s]; [reflexivity|]; destruct s; reflexivity. Qed.

Lemma same_shape_trans d1 d2 d3 : same_shape d1 d2 = true -> same_shape d2 d3 = true -> same_shape d1 d3 = true.
Proof.
  destruct d1 as [b|b x fs c s]; destruct d2 as [b2|b2 x2 fs2 c2 s2]; destruct d3 as [b3|b3 x3 fs3 c3 s3];
    simpl; try congruence; destruct s; destruct s2; simpl; try discriminate; destruct s3; simpl; congruence.
Qed.

Lemma same_shape_sym d1 d2 : same_shape d1 d2 = same_shape d2 d1.
Proof.
  destruct d1 as [b|b x fs c s]; destruct d2 as [b2|b2 x2 fs2 c2 s2]; try reflexivity;
    destruct s; destruct s2; reflexivity.
Qed.

Lemma shaped_setf f v d : shaped d -> shaped (setf f v d).
Proof.
  unfold shaped. rewrite d_kind_setf. apply same_shape_trans. apply same_shape_setf.
Qed.

Lemma shaped_set_schema s d : shaped d -> shaped (set_schema s d).
Proof. destruct d; exact (fun H => H). Qed.

Lemma target_shape d d' key : same_shape d d' = true -> target d key = target d' key.
Proof.
  destruct d as [b|b x fs c s]; destruct d' as [b'|b' x' fs' c' s']; simpl; try discriminate; [reflexivity|].
  intros H. unfold target. replace (spec_target s' (value key)) with (spec_target s (value key)); [reflexivity|].
  destruct s; destruct s'; simpl in H; try discriminate; reflexivity.
Qed.
