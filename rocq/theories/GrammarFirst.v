(** * GrammarFirst: the tokens a phrase may begin with *)
From Verif Require Import Base Float Tokens Ast Ctx Lexer Parser SpecLex SpecGrammar GrammarBase.
From Coq Require Import Lia.

Definition atom_start (t : tok) : bool :=
  match t with
  | TLp | TWslp | TLb | TListstart | TLc | TBoolean | TInteger | TFloat | TString | TConcatenatedString | TAttr | TPrivate | TDefault | TRegexp | TUndef
  | TTypeName | TIdentifier | TVariable | TIf | TUnless | TCase | TClass | TDefine | TApplication | TFunction | TPlan | TNode | TSite | TType | TRenderString | TRenderExpr => true
  | _ => false
  end.
Definition expr_start (t : tok) : bool :=
  match t with TSubtract | TAdd | TNot | TMultiply | TAt | TAtat => true | _ => atom_start t end.
Definition handle_start (t : tok) : bool := match t with TConsumes | TProduces => true | _ => expr_start t end.
Definition host_start (t : tok) : bool := match t with TIdentifier | TTypeName | TString | TConcatenatedString | TRegexp | TDefault => true | _ => false end.
Definition attr_start (t : tok) : bool :=
  match t with
  | TMultiply | TIdentifier | TDefault | TPlan | TAnd | TApplication | TAttr | TCase | TClass | TConsumes | TDefine | TFunction | TElse | TElsif | TIf | TIn | TInherits
  | TNode | TOr | TPrivate | TProduces | TSite | TType | TUndef | TUnless => true
  | _ => false
  end.
Definition first (n : nt) (t : tok) : bool :=
  match n with
  | Atom | Chain | Primary => atom_start t
  | Unary | Op _ | Select | Expression | Resource | Assign | Rel | Stmt | SelEntry | Bodies | Options => expr_start t
  | Handle | Arg | Entry => handle_start t
  | Param => match t with TTypeName | TMultiply | TVariable => true | _ => false end
  | TypeRef | OptType => tok_eqb t TTypeName
  | Lambda | OptLambda => tok_eqb t TPipe
  | Args => tok_eqb t TLp
  | Host | Hosts | Dotted => host_start t
  | Query => match t with TLcollect | TLlcollect => true | _ => false end
  | Rels => tok_eqb t TComma
  | Block => tok_eqb t TLc
  | AttrOp => attr_start t
  | Stmts => expr_start t
  | OptParams => match t with TLp | TWslp => true | _ => false end
  | OptReturn => tok_eqb t TRshift
  | Else _ => match t with TElse | TElsif => true | _ => false end
  | OptParent => tok_eqb t TInherits
  | OptDefault => tok_eqb t TAssign
  | If _ | ListOf _ => true
  | StepOf _ _ | StepBody _ => tok_eqb t TLc
  | StepProp | StateAttr | Alias => attr_start t
  | ReturnParam => match t with TTypeName | TVariable => true | _ => false end
  | OptAlias => tok_eqb t TAssign
  | Iteration _ => match t with TIdentifier | TVariable => true | _ => false end
  | Steps => match t with TIdentifier | TFunction => true | _ => false end
  end.
(** phrases that may be empty *)
Definition optional (n : nt) : bool :=
  match n with Stmts | OptParams | OptReturn | OptLambda | Else _ | OptParent | OptDefault | OptType | OptAlias | Iteration _ | Steps => true | _ => false end.
Definition firsts (n : nt) (ts : list tk) (es : list expr) : Prop :=
  match n with
  | ListOf n => es = [] /\ ts = [] \/ es <> [] /\ ts <> [] /\ first n (tok_of ts) = true
  | If _ => ts <> []
  | _ => optional n = true /\ ts = [] \/ ts <> [] /\ first n (tok_of ts) = true
  end.
Lemma tok_of_app ts1 ts2 : ts1 <> [] -> tok_of (ts1 ++ ts2) = tok_of ts1.
Proof. destruct ts1; [congruence|reflexivity]. Qed.
Definition listable (n : nt) : Prop := match n with ListOf _ | If _ => False | _ => optional n = false end.
Lemma firsts_one n ts es : firsts n ts es -> listable n -> ts <> [] /\ first n (tok_of ts) = true.
Proof. intros H L. destruct n; cbn in L; try contradiction; try discriminate L; destruct H as [[X _]|H]; try discriminate X; exact H. Qed.
(** the lists of the grammar have elements that are not optional *)
Definition fine (n : nt) : Prop := match n with ListOf n => listable n | _ => True end.
Lemma atom_expr t : atom_start t = true -> expr_start t = true.
Proof. destruct t; intros H; try discriminate H; reflexivity. Qed.
Lemma expr_handle t : expr_start t = true -> handle_start t = true.
Proof. destruct t; intros H; try discriminate H; reflexivity. Qed.
Lemma attr_tok k n : attribute_name k n -> attr_start (k_tok k) = true.
Proof.
  intros [[-> _]|(w & _ & HI)]; [reflexivity|]. unfold reserved in HI. cbn [In] in HI. repeat (destruct HI as [HI|HI]; [injection HI as _ <-; reflexivity|]). destruct HI.
Qed.
Lemma D_firsts wf ns n ts es : D wf ns n ts es -> fine n -> firsts n ts es.
Proof.
  intros H. induction H; intros HF; cbn [firsts]; unfold word, is, paren, defined_name in *; cbn [fine] in *;
    repeat match goal with
    | H : True -> _ |- _ => specialize (H Logic.I)
    | H : listable ?n -> firsts (ListOf ?n) _ _ |- _ => first [specialize (H HF)|specialize (H eq_refl)]
    | H : fine ?n -> _ |- _ => first [specialize (H Logic.I)|specialize (H eq_refl)|assert (fine n) by (destruct n; cbn in *; tauto||discriminate HF||exact Logic.I); specialize (H ltac:(assumption))]
    end.
  all: try (left; split; reflexivity).
  all: repeat match goal with H : firsts ?n ?ts ?es |- _ => apply firsts_one in H; [destruct H as [? ?]|first [assumption|reflexivity]] end.
  all: cbn [first] in *.
  all: try (right; split; [first [discriminate|assumption|intros X; apply app_eq_nil in X; tauto]|]).
  all: try (cbn [app tok_of]; rewrite ?tok_of_app by assumption; first [assumption|apply expr_handle; assumption|apply atom_expr; assumption|apply expr_handle, atom_expr; assumption]).
  all: try (cbn [app tok_of]; repeat match goal with H : _ \/ _ |- _ => destruct H as [H|H] | H : _ /\ _ |- _ => destruct H as [? ?] end;
    repeat match goal with H : k_tok ?k = _ |- context [k_tok ?k] => rewrite H end; reflexivity).
  - auto.
  - split; [intros X; apply app_eq_nil in X; tauto|]. now rewrite tok_of_app.
  - unfold soft_words in H. cbn [In tok_of] in *. repeat (destruct H as [<-|H]; [reflexivity|]). destruct H.
  - unfold soft_words in H. cbn [In tok_of] in *. repeat (destruct H as [<-|H]; [reflexivity|]). destruct H.
  - right. assert (X : ts1 ++ rest ++ k :: ts2 <> []) by (intros X; apply app_eq_nil in X; destruct X as [_ X]; apply app_eq_nil in X; destruct X; discriminate). split; [exact X|].
    destruct IHD1 as [[_ ->]|[Hn Ht]].
    + destruct H0 as [->|(s & -> & Hs)]; cbn [app tok_of]; [now rewrite H1|now rewrite Hs].
    + rewrite tok_of_app by assumption. apply tok_eqb_eq in Ht. now rewrite Ht.
  - exact (attr_tok H).
  - discriminate.
  - destruct IHD1 as [[? _]|(_ & ? & ?)]; [congruence|]. right. split; [intros X; apply app_eq_nil in X; tauto|]. now rewrite tok_of_app.
  - destruct IHD1 as [[? _]|(_ & ? & ?)]; [congruence|]. right. split; [intros X; apply app_eq_nil in X; tauto|]. now rewrite tok_of_app.
  - cbn [tok_of]. destruct H as [H _]. cbn [In] in H. destruct H as [<-|[<-|[]]]; reflexivity.
  - cbn [tok_of]. destruct H as [H _]. cbn [In] in H. destruct H as [<-|[<-|[]]]; reflexivity.
  - cbn [tok_of]. destruct H0 as (w & _ & -> & _). reflexivity.
  - exact (attr_tok H).
  - exact (attr_tok H).
  - exact (attr_tok H).
  - right. split; [intros X; apply app_eq_nil in X; destruct X; discriminate|]. destruct IHD1 as [[_ ->]|[Hn Ht]]; [cbn [app tok_of]; now rewrite H0|].
    rewrite tok_of_app by assumption. apply tok_eqb_eq in Ht. now rewrite Ht.
  - exact (attr_tok H).
  - right. destruct H as [[-> ->]|(v & a & -> & Hv & _)]; (split; [discriminate|]); cbn [app tok_of]; [now rewrite H0|now rewrite Hv].
  - exact (attr_tok H).
  - cbn [tok_of]. destruct H as (w & _ & -> & _). reflexivity.
Qed.
