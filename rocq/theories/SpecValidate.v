(** * SpecValidate: specification of validation (C33-C39, C46) *)
From Verif Require Import Base Float Ast Ctx Literal Visit Validator SpecVisit SpecLiteral.

(** ** C34, C35: severities *)
(** Two codes follow the strictness, one is a deprecation, all others are
    errors. *)
Definition documented_severity (s : strictness) (c : vcode) : option severity :=
  match c with
  | DuplicateKey | IdemExpressionNotLast =>
    match s with
    | StrictOff => None
    | StrictWarning => Some SevWarning
    | StrictError => Some SevError
    end
  | FutureReservedWord => Some SevDeprecation
  | _ => Some SevError
  end.
(** The issues seen with strictness [s], given those seen with StrictError. *)
Definition seen_with (s : strictness) (l : list vissue) : list vissue :=
  flat_map (fun i => match documented_severity s (i_code i) with
                     | Some v => [mkissue (i_code i) v (i_args i) (i_at i)]
                     | None => []
                     end) l.
Definition chk_map (f : list vissue -> list vissue) (c : chk) : chk :=
  match c with inl l => inl (f l) | inr p => inr p end.

(** ** Nodes and their positions *)
(** [node_at e anc d]: [d] is [e] itself (no ancestors) or below it, with the
    ancestors [anc], nearest first. *)
Definition node_at (e : expr) (anc : list expr) (d : expr) : Prop :=
  (anc = [] /\ d = e) \/ (exists a, below e a anc d).

(** ** C36 *)
(** Entry [j] of a hash repeats the literal key of an earlier entry. *)
Definition repeats_key (es : list expr) (j : nat) : Prop :=
  exists i qi ki vi qj kj vj li lj,
    (i < j)%nat /\ nth_error es i = Some (EKeyed qi ki vi) /\ nth_error es j = Some (EKeyed qj kj vj)
    /\ denotes ki li /\ denotes kj lj /\ may_be_key li /\ same_key li lj = true.
Definition simple_keys (es : list expr) : Prop :=
  forall q k v, In (EKeyed q k v) es -> forall w, denotes k w -> may_be_key w.

(** ** C37 *)
Definition param_name (e : expr) : option str :=
  match e with EParam _ n _ _ _ => Some n | _ => None end.
(** Parameter [j] has the name of an earlier one. *)
Definition repeats_param (ps : list expr) (j : nat) : Prop :=
  exists i n, (i < j)%nat /\ option_map param_name (nth_error ps i) = Some (Some n)
              /\ option_map param_name (nth_error ps j) = Some (Some n).

(** the nodes whose parameters are checked, and their parameters *)
Definition checked_params (k : checker) (anc : list expr) (d : expr) : option (list expr) :=
  match d with
  | EFunc _ false _ ps _ _ => Some ps
  | EDef _ (DClass _) _ ps _ | EDef _ DDefine _ ps _ => match k with Basic => Some ps | _ => None end
  | EEpp _ _ _ => match anc with ELambda _ ps _ _ :: _ => Some ps | _ => None end
  | _ => None
  end.

(** ** C38 *)
(** a lower case letter or underscore, then letters, digits and underscores *)
Definition simple_name (s : str) : Prop :=
  exists c r, s = c :: r /\ (("a"%ch <= c <= "z"%ch) \/ c = "_"%ch)
    /\ Forall (fun x => ("a"%ch <= x <= "z"%ch) \/ ("A"%ch <= x <= "Z"%ch) \/ ("0"%ch <= x <= "9"%ch) \/ x = "_"%ch) r.

(** ** C39 *)
Definition catalog_construct (e : expr) : Prop :=
  match e with
  | EDef _ DApplication _ _ _ => True           (* application *)
  | EDef _ (DClass _) _ _ _ => True             (* class *)
  | EDef _ DDefine _ _ _ => True                (* define *)
  | ECapMap _ _ _ _ _ => True                   (* capability mapping *)
  | ECollect _ _ _ _ => True                    (* collector *)
  | ENode _ _ _ _ => True                       (* node *)
  | EBin _ KRelationship _ _ _ => True          (* relationship *)
  | EResource _ _ _ _ => True                   (* resource *)
  | EResDefaults _ _ _ _ => True
  | EResOverride _ _ _ _ => True
  | ESite _ _ => True                           (* site *)
  | _ => False
  end.
Definition is_step (e : expr) : Prop := match e with EStep _ _ _ _ _ => True | _ => False end.
(** The issues with one of two codes, and the nodes of a list with a property *)
Definition has_code (c : vcode) (i : vissue) : bool :=
  match c, i_code i with
  | CatalogOperationNotSupported, CatalogOperationNotSupported => true
  | WorkflowOperationNotSupported, WorkflowOperationNotSupported => true
  | _, _ => false
  end.
Lemma is_step_dec e : {is_step e} + {~ is_step e}.
Proof. destruct e; cbn; auto. Defined.
Lemma catalog_dec e : {catalog_construct e} + {~ catalog_construct e}.
Proof. destruct e; cbn; auto; destruct k; cbn; auto. Defined.
Definition keep (P : expr -> Prop) (D : forall e, {P e} + {~ P e}) (l : list expr) : list expr :=
  filter (fun e => if D e then true else false) l.


(** ** C33: what a node's own issues may depend on *)
(** A node without its contents: kind, names and operators are kept.  The
    parameters of a lambda are kept too: an EPP template checks them. *)
Definition outline (e : expr) : expr :=
  let nop := ENop (mkpos 0 0) in
  match e with
  | EAccess p _ _ => EAccess p nop []
  | EBin p k op _ _ => EBin p k op nop nop
  | EUn p k _ => EUn p k nop
  | EQuery p k _ => EQuery p k nop
  | EAttrOp p op n _ => EAttrOp p op n nop
  | EAttrsOp p _ => EAttrsOp p nop
  | EBlock p _ => EBlock p []
  | ECallMethod p r _ _ _ => ECallMethod p r nop [] None
  | ECallNamed p r _ _ _ => ECallNamed p r nop [] None
  | ECapMap p k c _ _ => ECapMap p k c nop []
  | ECase p _ _ => ECase p nop []
  | ECaseOption p _ _ => ECaseOption p [] nop
  | ECollect p _ _ _ => ECollect p nop nop []
  | EConcat p _ => EConcat p []
  | EEpp p b _ => EEpp p b nop
  | EHeredoc p s _ => EHeredoc p s nop
  | EDef p k n _ _ => EDef p k n [] nop
  | EFunc p k n _ _ _ => EFunc p k n [] nop None
  | EIf p k _ _ _ => EIf p k nop nop nop
  | EKeyed p _ _ => EKeyed p nop nop
  | ELambda p ps _ _ => ELambda p ps nop None
  | EHash p _ => EHash p []
  | EList p _ => EList p []
  | ECommaList p _ => ECommaList p []
  | ENode p _ _ _ => ENode p None [] nop
  | EParam p n _ _ c => EParam p n None None c
  | EProgram p _ _ => EProgram p nop []
  | EResBody p _ _ => EResBody p nop []
  | EResDefaults p f _ _ => EResDefaults p f nop []
  | EResource p f _ _ => EResource p f nop []
  | EResOverride p f _ _ => EResOverride p f nop []
  | ESelEntry p _ _ => ESelEntry p nop nop
  | ESelector p _ _ => ESelector p nop []
  | ESite p _ => ESite p nop
  | ETypeAlias p n _ => ETypeAlias p n nop
  | ETypeDef p n q _ => ETypeDef p n q nop
  | ETypeMapping p _ _ => ETypeMapping p nop nop
  | EStep p n s _ _ => EStep p n s None None
  | x => x
  end.
(** Code, severity and location of an issue. *)
Definition summary (i : vissue) : vcode * severity * pos := (i_code i, i_sev i, epos (i_at i)).
Definition summaries (c : chk) : list (vcode * severity * pos) + psite :=
  match c with inl l => inl (map summary l) | inr p => inr p end.
