(** * Ctx: the parser's state, its failures, and the reader

    parser/lexer.go:31-37, 308-335 (context), parser/reader.go (stringReader),
    parser/issues.go (issue codes).  A Go method on *context is a function
    [M A := ctx -> res A]; a Go panic is an [Err] that carries the state at
    the time of the panic (the context survives a panic, and a later Parse on
    the same parser starts from that state). *)
From Verif Require Import Base Float Tokens Ast.

(** Options of CreateParser (parser.go:79-85, 138-155) and two things the
    model is parametric in: whether the context has a factory (it has none
    under NewSimpleLexer, parser.go:87-97), and Go's unicode.IsLetter outside
    ASCII. *)
Record opts := mkopts {
  o_epp : bool; o_backtick : bool; o_hex : bool; o_tasks : bool; o_workflow : bool;
  o_factory : bool; o_isLetter : Z -> bool }.

(** tokenValue: interface{} (lexer.go:320) *)
Inductive tval : Set :=
| VNil | VStr (s : str) | VInt (z : Z) | VFloat (f : f64) | VBool (b : bool) | VDefault
| VExpr (e : expr).

(** lexer.go:308-325.  [c_text]/[c_pos] are the embedded stringReader; the
    locator is determined by the text. *)
Record ctx := mkctx {
  c_text : str;
  c_opts : opts;
  c_pos : Z;
  c_nls : Z;            (* nextLineStart *)
  c_tok : tok;          (* currentToken *)
  c_bol : Z;            (* beginningOfLine *)
  c_tsp : Z;            (* tokenStartPos *)
  c_val : tval;         (* tokenValue *)
  c_radix : Z;
  c_names : list str;   (* nameStack, outermost first *)
  c_defs : list expr }. (* definitions *)

Definition with_pos (p : Z) (c : ctx) : ctx :=
  mkctx (c_text c) (c_opts c) p (c_nls c) (c_tok c) (c_bol c) (c_tsp c) (c_val c) (c_radix c) (c_names c) (c_defs c).
Definition with_nls (v : Z) (c : ctx) : ctx :=
  mkctx (c_text c) (c_opts c) (c_pos c) v (c_tok c) (c_bol c) (c_tsp c) (c_val c) (c_radix c) (c_names c) (c_defs c).
Definition with_tok (t : tok) (v : tval) (c : ctx) : ctx :=
  mkctx (c_text c) (c_opts c) (c_pos c) (c_nls c) t (c_bol c) (c_tsp c) v (c_radix c) (c_names c) (c_defs c).
Definition with_bol (b : Z) (c : ctx) : ctx :=
  mkctx (c_text c) (c_opts c) (c_pos c) (c_nls c) (c_tok c) b (c_tsp c) (c_val c) (c_radix c) (c_names c) (c_defs c).
Definition with_tsp (b : Z) (c : ctx) : ctx :=
  mkctx (c_text c) (c_opts c) (c_pos c) (c_nls c) (c_tok c) (c_bol c) b (c_val c) (c_radix c) (c_names c) (c_defs c).
Definition with_radix (r : Z) (c : ctx) : ctx :=
  mkctx (c_text c) (c_opts c) (c_pos c) (c_nls c) (c_tok c) (c_bol c) (c_tsp c) (c_val c) r (c_names c) (c_defs c).
Definition with_names (ns : list str) (c : ctx) : ctx :=
  mkctx (c_text c) (c_opts c) (c_pos c) (c_nls c) (c_tok c) (c_bol c) (c_tsp c) (c_val c) (c_radix c) ns (c_defs c).
Definition with_defs (ds : list expr) (c : ctx) : ctx :=
  mkctx (c_text c) (c_opts c) (c_pos c) (c_nls c) (c_tok c) (c_bol c) (c_tsp c) (c_val c) (c_radix c) (c_names c) ds.

(** issues.go:5-56 (the codes that are never raised are left out:
    PARSE_EXPECTED_STEP_OPERATION, PARSE_INVALID_STEP_ATTRIBUTE) *)
Inductive icode : Set :=
| LEX_DOUBLE_COLON_NOT_FOLLOWED_BY_NAME | LEX_DIGIT_EXPECTED | LEX_HEREDOC_EMPTY_TAG
| LEX_HEREDOC_ILLEGAL_ESCAPE | LEX_HEREDOC_MULTIPLE_ESCAPE | LEX_HEREDOC_MULTIPLE_SYNTAX
| LEX_HEREDOC_MULTIPLE_TAG | LEX_HEREDOC_DECL_UNTERMINATED | LEX_HEREDOC_UNTERMINATED
| LEX_HEXDIGIT_EXPECTED | LEX_INVALID_NAME | LEX_INVALID_OPERATOR | LEX_INVALID_TYPE_NAME
| LEX_INVALID_VARIABLE_NAME | LEX_MALFORMED_HEX_ESCAPE | LEX_MALFORMED_INTERPOLATION
| LEX_MALFORMED_UNICODE_ESCAPE | LEX_OCTALDIGIT_EXPECTED | LEX_UNBALANCED_EPP_COMMENT
| LEX_UNEXPECTED_TOKEN | LEX_UNTERMINATED_COMMENT | LEX_UNTERMINATED_STRING
| PARSE_CLASS_NOT_VALID_HERE | PARSE_ELSIF_IN_UNLESS | PARSE_EXPECTED_STEP_NAME
| PARSE_EXPECTED_STEP_STYLE | PARSE_EXPECTED_ATTRIBUTE_NAME | PARSE_EXPECTED_ITERATOR_STYLE
| PARSE_EXPECTED_CLASS_NAME | PARSE_EXPECTED_FARROW_AFTER_KEY
| PARSE_EXPECTED_NAME_OR_NUMBER_AFTER_DOT | PARSE_EXPECTED_NAME_AFTER_FUNCTION
| PARSE_EXPECTED_NAME_AFTER_PLAN | PARSE_EXPECTED_HOSTNAME | PARSE_EXPECTED_TITLE
| PARSE_EXPECTED_TOKEN | PARSE_EXPECTED_ONE_OF_TOKENS | PARSE_EXPECTED_TYPE_NAME
| PARSE_EXPECTED_TYPE_NAME_AFTER_TYPE | PARSE_EXPECTED_VARIABLE | PARSE_EXTRANEOUS_COMMA
| PARSE_ILLEGAL_EPP_PARAMETERS | PARSE_INVALID_ATTRIBUTE | PARSE_INVALID_RESOURCE
| PARSE_INHERITS_MUST_BE_TYPE_NAME | PARSE_RESOURCE_WITHOUT_TITLE | PARSE_QUOTED_NOT_VALID_NAME.

(** issue.H *)
Definition args := list (string * str).

(** Go run-time panics, and the one panic(string), by cause *)
Inductive psite : Set :=
| GoSliceBounds     (* slice bounds out of range in a text *)
| GoIndex           (* index out of range in a text *)
| GoElems           (* index 0 of an empty list of expressions *)
| GoNames           (* slice bounds out of range: the name stack is empty *)
| GoTypeAssert      (* failed type assertion x.(T) *)
| GoNilDeref        (* method call on a nil Expression *)
| GoString.         (* panic(fmt.Sprintf(...)) in tokenString, parser.go:276-284 *)

(** What a Go method can panic with.  [Issue] is an issue.Reported located at
    a byte offset (lexer.go:31-37); [IssueAt] is the one issue located by line
    and column (parser.go:318-322); [ParseErr] is the reader's *parseError. *)
Inductive err : Set :=
| Issue (code : icode) (a : args) (off : Z)
| IssueAt (code : icode) (line col : Z)
| ParseErr (off : Z)
| GoPanic (site : psite).

Inductive res (A : Type) : Type :=
| Ok (a : A) (c : ctx)
| Err (e : err) (c : ctx)
| Fuel.                     (* the model ran out of fuel; never a Go outcome *)
Arguments Ok {A}. Arguments Err {A}. Arguments Fuel {A}.

Definition M (A : Type) := ctx -> res A.
Definition ret (A : Type) (a : A) : M A := fun c => Ok a c.
Definition bind (A B : Type) (m : M A) (k : A -> M B) : M B :=
  fun c => match m c with
           | Ok a c' => k a c'
           | Err e c' => Err e c'
           | Fuel => Fuel
           end.
Declare Scope m_scope.
Delimit Scope m_scope with m.
Notation "x <- m ;; k" := (bind m (fun x => k)) (at level 61, m at next level, right associativity) : m_scope.
Notation "' p <- m ;; k" := (bind m (fun p => k)) (at level 61, p pattern, m at next level, right associativity) : m_scope.
Notation "m ;; k" := (bind m (fun _ => k)) (at level 61, right associativity) : m_scope.
Open Scope m_scope.

Definition ask (A : Type) (f : ctx -> A) : M A := fun c => Ok (f c) c.
Definition modify (f : ctx -> ctx) : M unit := fun c => Ok tt (f c).
Definition throw {A : Type} (e : err) : M A := fun c => Err e c.
Definition out_of_fuel {A : Type} : M A := fun _ => Fuel.

(** parseIssue, parseIssue2 (lexer.go:31-37): located at the current position *)
Definition issue2 {A : Type} (code : icode) (a : args) : M A := fun c => Err (Issue code a (c_pos c)) c.
Definition issue {A : Type} (code : icode) : M A := issue2 code [].

(** A Go for loop: [body] yields the next loop variables or the result.  No
    loop that uses this combinator runs more often than twice over the text,
    which the termination theorem establishes. *)
Fixpoint loop (A B : Type) (n : nat) (body : A -> M (A + B)) (a : A) : M B :=
  match n with
  | O => out_of_fuel
  | S n' => r <- body a ;; match r with inl a' => loop n' body a' | inr b => ret b end
  end.
Definition loop_fuel (c : ctx) : nat := (2 * List.length (c_text c) + 8)%nat.
Definition while (A B : Type) (body : A -> M (A + B)) (a : A) : M B :=
  fun c => loop (loop_fuel c) body a c.

(** ** stringReader (reader.go) *)
Definition len (c : ctx) : Z := zlen (c_text c).
Definition getPos : M Z := ask c_pos.                          (* Pos, reader.go:107-109 *)
Definition setPos (p : Z) : M unit := modify (with_pos p).     (* SetPos, reader.go:111-113 *)
Definition advance (n : Z) : M unit := modify (fun c => with_pos (c_pos c + n) c). (* Advance, reader.go:103-105 *)

(** The rune at byte [p] and its size; [(0, 0)] at the end (reader.go:71-101
    Peek and PeekAt).  [inr] is the failure: a decoded U+FFFD is "invalid
    unicode", a negative index is a Go run-time panic. *)
Definition rune_at (p : Z) (c : ctx) : (Z * Z) + err :=
  if len c <=? p then inl (0, 0)
  else if p <? 0 then inr (GoPanic GoIndex)
  else
    match skipn (Z.to_nat p) (c_text c) with
    | [] => inl (0, 0)
    | (b :: _) as s =>
      if b <? 128 then inl (b, 1)
      else let (r, w) := decode_rune s in
           if r =? rune_error then inr (ParseErr (c_pos c)) else inl (r, w)
    end.
Definition peek : M (Z * Z) := fun c =>                        (* reader.go:71-86 *)
  match rune_at (c_pos c) c with inl r => Ok r c | inr e => Err e c end.
Definition peekAt (p : Z) : M (Z * Z) := fun c =>              (* reader.go:88-101 *)
  if p <? 0 then Ok (0, 0) c
  else match rune_at p c with inl r => Ok r c | inr e => Err e c end.
(** Next (reader.go:54-69): the rune and its start; advances *)
Definition next : M (Z * Z) := fun c =>
  match rune_at (c_pos c) c with
  | inl (r, w) => Ok (r, c_pos c) (with_pos (c_pos c + w) c)
  | inr e => Err e c
  end.
(** From (reader.go:121-125): text[start:i] *)
Definition from (start : Z) : M str := fun c =>
  if (0 <=? start) && (start <=? c_pos c) && (c_pos c <=? len c)
  then Ok (slice (c_text c) start (c_pos c)) c
  else Err (GoPanic GoSliceBounds) c.

(** ** tokens (lexer.go:327-335) *)
Definition setToken (t : tok) : M unit := modify (with_tok t VNil).
Definition settokenValue (t : tok) (v : tval) : M unit := modify (with_tok t v).
Definition curTok : M tok := ask c_tok.
Definition is_tok (t : tok) : M bool := ask (fun c => tok_eqb (c_tok c) t).
Definition option_on (f : opts -> bool) : M bool := ask (fun c => f (c_opts c)).

(** unicode.IsLetter: exact on ASCII, an oracle elsewhere *)
Definition isLetterU (o : opts) (c : Z) : bool :=
  if c <? 128 then isUppercaseLetter c || isLowercaseLetter c else o_isLetter o c.
Definition isLetterM (c : Z) : M bool := ask (fun x => isLetterU (c_opts x) c).
