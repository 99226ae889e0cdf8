(** * Tokens of the lexer (parser/lexer.go:40-303)

    Generated from the Go constants by hand-checked script; one constructor
    per Go constant. *)
From Verif Require Import Base.

(** parser/lexer.go:40-159: the token constants *)
Inductive tok : Set :=
| TEnd
| TAssign
| TAddAssign
| TSubtractAssign
| TMultiply
| TDivide
| TRemainder
| TSubtract
| TAdd
| TLshift
| TRshift
| TEqual
| TNotEqual
| TLess
| TLessEqual
| TGreater
| TGreaterEqual
| TMatch
| TNotMatch
| TLcollect
| TLlcollect
| TRcollect
| TRrcollect
| TFarrow
| TParrow
| TInEdge
| TInEdgeSub
| TOutEdge
| TOutEdgeSub
| TNot
| TAt
| TAtat
| TLp
| TWslp
| TRp
| TLb
| TListstart
| TRb
| TLc
| TSelc
| TRc
| TPipe
| TPipeEnd
| TEppEnd
| TEppEndTrim
| TRenderExpr
| TRenderString
| TComma
| TDot
| TQmark
| TColon
| TSemicolon
| TIdentifier
| TString
| TInteger
| TFloat
| TBoolean
| TConcatenatedString
| THeredoc
| TVariable
| TRegexp
| TTypeName
| TAnd
| TApplication
| TAttr
| TCase
| TClass
| TConsumes
| TDefault
| TDefine
| TFunction
| TIf
| TIn
| TInherits
| TElse
| TElsif
| TNode
| TOr
| TPlan
| TPrivate
| TProduces
| TSite
| TType
| TUndef
| TUnless.

(** The Go value of a token constant (parser/lexer.go:40-159) *)
Definition tok_code (t : tok) : Z :=
  match t with
  | TEnd => 0
  | TAssign => 1
  | TAddAssign => 2
  | TSubtractAssign => 3
  | TMultiply => 10
  | TDivide => 11
  | TRemainder => 12
  | TSubtract => 13
  | TAdd => 14
  | TLshift => 20
  | TRshift => 21
  | TEqual => 30
  | TNotEqual => 31
  | TLess => 32
  | TLessEqual => 33
  | TGreater => 34
  | TGreaterEqual => 35
  | TMatch => 40
  | TNotMatch => 41
  | TLcollect => 50
  | TLlcollect => 51
  | TRcollect => 60
  | TRrcollect => 61
  | TFarrow => 70
  | TParrow => 71
  | TInEdge => 72
  | TInEdgeSub => 73
  | TOutEdge => 74
  | TOutEdgeSub => 75
  | TNot => 80
  | TAt => 81
  | TAtat => 82
  | TLp => 90
  | TWslp => 91
  | TRp => 92
  | TLb => 100
  | TListstart => 101
  | TRb => 102
  | TLc => 110
  | TSelc => 111
  | TRc => 112
  | TPipe => 120
  | TPipeEnd => 121
  | TEppEnd => 130
  | TEppEndTrim => 131
  | TRenderExpr => 132
  | TRenderString => 133
  | TComma => 140
  | TDot => 141
  | TQmark => 142
  | TColon => 143
  | TSemicolon => 144
  | TIdentifier => 150
  | TString => 151
  | TInteger => 152
  | TFloat => 153
  | TBoolean => 154
  | TConcatenatedString => 155
  | THeredoc => 156
  | TVariable => 157
  | TRegexp => 158
  | TTypeName => 159
  | TAnd => 200
  | TApplication => 201
  | TAttr => 202
  | TCase => 203
  | TClass => 204
  | TConsumes => 205
  | TDefault => 206
  | TDefine => 207
  | TFunction => 208
  | TIf => 209
  | TIn => 210
  | TInherits => 211
  | TElse => 212
  | TElsif => 213
  | TNode => 214
  | TOr => 215
  | TPlan => 216
  | TPrivate => 217
  | TProduces => 218
  | TSite => 219
  | TType => 220
  | TUndef => 221
  | TUnless => 222
  end.

Definition tok_eqb (a b : tok) : bool := tok_code a =? tok_code b.

Lemma tok_code_inj a b : tok_code a = tok_code b -> a = b.
Proof. destruct a; destruct b; cbn; intros H; try reflexivity; discriminate H. Qed.

Lemma tok_eqb_spec a b : reflect (a = b) (tok_eqb a b).
Proof.
  unfold tok_eqb. destruct (Z.eqb_spec (tok_code a) (tok_code b)) as [H|H]; constructor.
  - now apply tok_code_inj.
  - intros ->. now apply H.
Qed.

Lemma tok_eqb_refl a : tok_eqb a a = true.
Proof. unfold tok_eqb. apply Z.eqb_refl. Qed.

Lemma tok_eqb_eq a b : tok_eqb a b = true <-> a = b.
Proof. destruct (tok_eqb_spec a b); split; congruence. Qed.

(** parser/lexer.go:161-163 IsKeywordToken, on the Go integer *)
Definition IsKeywordToken (code : Z) : bool :=
  (tok_code TAnd <=? code) && (code <=? tok_code TUnless).

(** parser/lexer.go:165-275 tokenMap *)
Definition tok_text (t : tok) : string :=
  match t with
  | TEnd => "EOF"
  | TAssign => "="
  | TAddAssign => "+="
  | TSubtractAssign => "-="
  | TMultiply => "*"
  | TDivide => "/"
  | TRemainder => "%"
  | TSubtract => "-"
  | TAdd => "+"
  | TLshift => "<<"
  | TRshift => ">>"
  | TEqual => "=="
  | TNotEqual => "!="
  | TLess => "<"
  | TLessEqual => "<="
  | TGreater => ">"
  | TGreaterEqual => ">="
  | TMatch => "=~"
  | TNotMatch => "!~"
  | TLcollect => "<|"
  | TLlcollect => "<<|"
  | TRcollect => "|>"
  | TRrcollect => "|>>"
  | TFarrow => "=>"
  | TParrow => "+>"
  | TInEdge => "->"
  | TInEdgeSub => "~>"
  | TOutEdge => "<-"
  | TOutEdgeSub => "<~"
  | TNot => "!"
  | TAt => "@"
  | TAtat => "@@"
  | TLp => "("
  | TWslp => "("
  | TRp => ")"
  | TLb => "["
  | TListstart => "["
  | TRb => "]"
  | TLc => "{"
  | TSelc => "{"
  | TRc => "}"
  | TPipe => "|"
  | TPipeEnd => "|"
  | TEppEnd => "%>"
  | TEppEndTrim => "-%>"
  | TRenderExpr => "<%="
  | TRenderString => "epp text"
  | TComma => ","
  | TDot => "."
  | TQmark => "?"
  | TColon => ":"
  | TSemicolon => ";"
  | TIdentifier => "identifier"
  | TString => "string literal"
  | TInteger => "integer literal"
  | TFloat => "float literal"
  | TBoolean => "boolean literal"
  | TConcatenatedString => "dq string literal"
  | THeredoc => "heredoc"
  | TVariable => "variable"
  | TRegexp => "regexp"
  | TTypeName => "type name"
  | TAnd => "and"
  | TApplication => "application"
  | TAttr => "attr"
  | TCase => "case"
  | TClass => "class"
  | TConsumes => "consumes"
  | TDefault => "default"
  | TDefine => "define"
  | TFunction => "function"
  | TIf => "if"
  | TIn => "in"
  | TInherits => "inherits"
  | TElse => "else"
  | TElsif => "elsif"
  | TNode => "node"
  | TOr => "or"
  | TPlan => "plan"
  | TPrivate => "private"
  | TProduces => "produces"
  | TSite => "site"
  | TType => "type"
  | TUndef => "undef"
  | TUnless => "unless"
  end%string.
Definition tokenMap (t : tok) : str := lit (tok_text t).

(** parser/lexer.go:277-303 keywords *)
Definition keywords : list (string * tok) := [
  ("application", TApplication);
  ("and", TAnd);
  ("attr", TAttr);
  ("case", TCase);
  ("class", TClass);
  ("consumes", TConsumes);
  ("default", TDefault);
  ("define", TDefine);
  ("false", TBoolean);
  ("function", TFunction);
  ("else", TElse);
  ("elsif", TElsif);
  ("if", TIf);
  ("in", TIn);
  ("inherits", TInherits);
  ("node", TNode);
  ("or", TOr);
  ("plan", TPlan);
  ("private", TPrivate);
  ("produces", TProduces);
  ("site", TSite);
  ("true", TBoolean);
  ("type", TType);
  ("undef", TUndef);
  ("unless", TUnless)]%string.

Fixpoint kw_find (w : str) (l : list (string * tok)) : option tok :=
  match l with
  | [] => None
  | (k, t) :: l' => if str_eqb w (lit k) then Some t else kw_find w l'
  end.
Definition kw_lookup (w : str) : option tok := kw_find w keywords.
