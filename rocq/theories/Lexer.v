(** * Lexer: parser/lexer.go:337-1728

    Functions that (mutually) call themselves or the parser take the
    recursive calls as a parameter [rec], indexed by the tags of [fn]; the
    knot is tied in Parser.v.  Loops that never reach the parser are [while]
    loops. *)
From Verif Require Import Base Float Tokens Ast Ctx.

(** ** Tags of the recursive functions *)

(** The binary operator levels, loosest first (parser.go:499-632) *)
Inductive level : Set :=
| LOr | LAnd | LCompare | LEqual | LShift | LAdd | LMul | LMatch | LIn.

(** The functions passed to ctx.expressions (parser.go:343-361) *)
Inductive producer : Set :=
| PArgument | PKeyedEntry | PSelectorEntry | PExpression | PStepProperty
| PStateAttribute | PParameter | PReturnParameter | PAttributeAlias.

(** The escapeHandler functions (lexer.go:1252-1282, 1308-1313, 1322-1325) *)
Inductive handler : Set := HDouble | HSingle | HRegexp.

Inductive fn : Type -> Type :=
(* lexer *)
| FNextToken : fn unit                                          (* nextToken *)
| FDelim (delim dstart : Z) (h : handler) (buf : str) (ec start : Z)
         (segs : option (list expr)) : fn (option (list expr))  (* loop of consumeDelimitedString *)
| FApply (end_ indent : Z) (flags : list Z) (bld : str) (c start : Z)
         (segs : option (list expr)) : fn (str * option (list expr)) (* loop of applyEscapes *)
(* parser *)
| FParse (e : tok) (single : bool) : fn expr                    (* parse *)
| FStatements (e : tok) (acc : list expr) : fn (list expr)      (* loop of parse *)
| FCommas (acc : list expr) : fn (list expr)                    (* loop of syntacticStatement *)
| FExpressions (e : tok) (p : producer) (acc : list expr) : fn (list expr) (* loop of expressions *)
| FRelationship : fn expr
| FRelLoop (e : expr) : fn expr
| FAssignment : fn expr
| FAssignLoop (e : expr) : fn expr
| FExpression : fn expr
| FSelectLoop (e : expr) : fn expr
| FLevel (l : level) : fn expr                                  (* orExpression ... inExpression *)
| FLevelLoop (l : level) (e : expr) : fn expr
| FUnary : fn expr
| FPrimary : fn expr
| FPrimaryLoop (e : expr) : fn expr
| FAtom : fn expr
| FCall (functor : expr) : fn expr                              (* callFunctionExpression *)
| FParameterType : fn expr
| FIf (unless : bool) : fn expr
| FCaseOptions (acc : list expr) : fn (list expr)               (* loop of caseOptions *)
| FResourceExpr (start : Z) (first : expr) (form : rform) : fn expr
| FBodies (title : option expr) (acc : list expr) : fn (list expr) (* loop of resourceBodies *)
| FAttrOps (acc : list expr) : fn (list expr)                   (* loop of attributeOperations *)
| FHostnames (acc : list expr) : fn (list expr)                 (* loop of hostnames *)
| FDotted (start : Z) (names : list str) : fn expr              (* loop of dottedName *)
| FActivities (acc : list expr) : fn (list expr)                (* loop of activities *)
| FStepDecl (start : Z) (st : style) (name : str) (atTop : bool) : fn expr (* stepDeclaration *)
| FEppLoop (acc : list expr) : fn expr.                         (* loop of parseTopExpression *)

(** ** Loops without recursion *)

(** skipWhite (lexer.go:747-817).  [cs] is commentStart (0, '#' or '*') and
    [csp] commentStartPos. *)
Definition skipWhite_step (breakOnNewLine : bool) (st : Z * Z) : M ((Z * Z) + (Z * Z)) :=
  let '(cs, csp) := st in
  '(c, start) <- next ;;
  if c =? 0 then
    if cs =? "*"%ch then setPos csp ;; issue LEX_UNTERMINATED_COMMENT
    else ret (inr (c, start))
  else if c =? 10 then
    if cs =? "*"%ch then ret (inl (cs, csp))
    else if breakOnNewLine then setPos start ;; ret (inr (c, start))
    else
      modify (fun x => if 0 <=? c_nls x then with_nls (-1) (with_pos (c_nls x) x) else x) ;;
      modify (fun x => with_bol (c_pos x) x) ;;
      ret (inl (if cs =? "#"%ch then 0 else cs, csp))
  else if c =? "#"%ch then
    if cs =? 0 then ret (inl ("#"%ch, start)) else ret (inl (cs, csp))
  else if c =? "/"%ch then
    if cs =? 0 then
      '(tc, sz) <- peek ;;
      if tc =? "*"%ch then advance sz ;; ret (inl ("*"%ch, start))
      else ret (inr (c, start))
    else ret (inl (cs, csp))
  else if c =? "*"%ch then
    if cs =? "#"%ch then ret (inl (cs, csp))
    else if cs =? "*"%ch then
      '(tc, sz) <- peek ;;
      if tc =? "/"%ch then advance sz ;; ret (inl (0, csp)) else ret (inl (cs, csp))
    else ret (inr (c, start))
  else if (c =? " "%ch) || (c =? 13) || (c =? 9) then ret (inl (cs, csp))
  else if cs =? 0 then ret (inr (c, start))
  else ret (inl (cs, csp)).
Definition skipWhite (breakOnNewLine : bool) : M (Z * Z) :=
  while (skipWhite_step breakOnNewLine) (0, 0).

(** skipWhiteInLiteral (lexer.go:821-833) *)
Definition skipWhiteInLiteral : M (Z * Z) :=
  while (fun _ : unit =>
    '(c, start) <- next ;;
    if (c =? " "%ch) || (c =? 13) || (c =? 9) then ret (inl tt) else ret (inr (c, start))) tt.

(** [for p(c) { Advance(n); c, n = Peek() }] starting from a Peek; the number
    of rounds, and the last Peek *)
Definition skip_while (p : Z -> bool) : M (Z * (Z * Z)) :=
  while (fun count =>
    '(c, n) <- peek ;;
    if p c then advance n ;; ret (inl (count + 1)) else ret (inr (count, (c, n)))) 0.

(** skipDecimalDigits (lexer.go:981-994) *)
Definition skipDecimalDigits : M Z :=
  '(c, n) <- peek ;;
  (if (c =? "-"%ch) || (c =? "+"%ch) then advance n else ret tt) ;;
  '(count, _) <- skip_while isDecimalDigit ;;
  ret count.

(** The scan over dashes in consumeQualifiedName (lexer.go:874-890): [true] if
    the name goes on after them *)
Definition dash_scan (i0 : Z) : M bool :=
  while (fun i =>
    '(c, n) <- peekAt i ;;
    let i' := i + n in
    if isLetterOrDigit c then setPos i' ;; ret (inr true)
    else if c =? "-"%ch then ret (inl i') else ret (inr false)) i0.

(** consumeQualifiedName (lexer.go:863-957).  The loop yields hasDash. *)
Definition qualifiedName_step (start : Z) (token : tok) (st : bool * bool) : M ((bool * bool) + bool) :=
  let '(lastStartsWithUnderscore, hasDash) := st in
  '(_, (c, n)) <- skip_while isLetterOrDigit ;;
  if (c =? "-"%ch) && tok_eqb token TIdentifier then
    p <- getPos ;;
    more <- dash_scan (p + n) ;;
    ret (if more : bool then inl (lastStartsWithUnderscore, true) else inr hasDash)
  else if negb (c =? ":"%ch) then ret (inr hasDash)
  else
    nameEnd <- getPos ;;
    advance n ;;
    '(c, n) <- peek ;;
    if negb (c =? ":"%ch) then setPos nameEnd ;; ret (inr hasDash)
    else
      advance n ;;
      '(c, n) <- peek ;;
      if ((tok_eqb token TTypeName && isUppercaseLetter c)
          || (negb (tok_eqb token TTypeName)
              && (isLowercaseLetter c || (tok_eqb token TVariable && (c =? "_"%ch)))))
         && negb lastStartsWithUnderscore
      then advance n ;; ret (inl (c =? "_"%ch, hasDash))
      else
        setPos start ;;
        issue (match token with
               | TTypeName => LEX_INVALID_TYPE_NAME
               | TVariable => LEX_INVALID_VARIABLE_NAME
               | _ => LEX_INVALID_NAME
               end).
Definition consumeQualifiedName (start : Z) (token : tok) : M unit :=
  hasDash <- while (qualifiedName_step start token) (false, false) ;;
  word <- from (if tok_eqb token TVariable then start + 1 else start) ;;
  if tok_eqb token TIdentifier then
    if hasDash : bool then settokenValue TString (VStr word)
    else match kw_lookup word with
         | Some TBoolean => settokenValue TBoolean (VBool (str_eqb word (lit "true")))
         | Some TDefault => settokenValue TDefault VDefault
         | Some TPlan =>
           tasks <- option_on o_tasks ;;
           settokenValue (if tasks : bool then TPlan else token) (VStr word)
         | Some kw => settokenValue kw (VStr word)
         | None => settokenValue token (VStr word)
         end
  else settokenValue token (VStr word).

(** consumeFloat (lexer.go:959-979) *)
Definition digits_or_fail : M unit :=
  n <- skipDecimalDigits ;; if n =? 0 then issue LEX_DIGIT_EXPECTED else ret tt.
Definition consumeFloat (start d : Z) : M unit :=
  digits_or_fail ;;
  '(c, n) <- peek ;;
  c <- (if (d =? "."%ch) && ((c =? "e"%ch) || (c =? "E"%ch)) then
          advance n ;; digits_or_fail ;; '(c, _) <- peek ;; ret c
        else ret c) ;;
  letter <- isLetterM c ;;
  if letter : bool then issue LEX_DIGIT_EXPECTED
  else s <- from start ;; settokenValue TFloat (VFloat (parse_float s)).

(** unterminatedQuote (lexer.go:337-348) *)
Definition unterminatedQuote {A} (start delimiter : Z) : M A :=
  setPos start ;;
  issue2 LEX_UNTERMINATED_STRING
    [("string_type"%string,
      lit (if delimiter =? """"%ch then "double"%string
           else if delimiter =? "'"%ch then "single"%string else "backtick"%string))].

(** appendHexadec (lexer.go:1666-1678) *)
Definition appendHexadec (buf : str) : M str :=
  '(d, start) <- next ;;
  (if isHexDigit d then
     '(d, _) <- next ;;
     if isHexDigit d then ret tt else setPos (start - 2) ;; issue LEX_MALFORMED_HEX_ESCAPE
   else ret tt) ;;
  s <- from start ;;
  ret (buf ++ [parse_int s 16 64 mod 256]).

(** appendUnicode (lexer.go:1680-1717).  The loop over the three further
    digits is unrolled. *)
Definition unicode_digit (start : Z) : M unit :=
  '(digit, _) <- next ;;
  if isHexDigit digit then ret tt else setPos (start - 2) ;; issue LEX_MALFORMED_UNICODE_ESCAPE.
Definition appendUnicode (buf : str) : M str :=
  '(ec, start) <- next ;;
  if isHexDigit ec then
    unicode_digit start ;; unicode_digit start ;; unicode_digit start ;;
    s <- from start ;;
    ret (buf ++ encode_rune (parse_int s 16 32))
  else if negb (ec =? "{"%ch) then setPos (start - 2) ;; issue LEX_MALFORMED_UNICODE_ESCAPE
  else
    hexStart <- getPos ;;
    '(_, (ec, n)) <- skip_while isHexDigit ;;
    p <- getPos ;;
    let uLen := p - hexStart in
    if negb ((2 <=? uLen) && (uLen <=? 6) && (ec =? "}"%ch)) then
      setPos (start - 2) ;; issue LEX_MALFORMED_UNICODE_ESCAPE
    else
      s <- from hexStart ;;
      advance n ;;
      ret (buf ++ encode_rune (parse_int s 16 32)).

(** The escape handlers: HDouble is lexer.go:1252-1282, HSingle is
    lexer.go:1308-1313, HRegexp is lexer.go:1322-1325 *)
Definition handle_escape (h : handler) (buf : str) (ec : Z) : M str :=
  match h with
  | HSingle => ret (buf ++ "\"%ch :: (if ec =? "\"%ch then [] else encode_rune ec))
  | HRegexp => ret (buf ++ "\"%ch :: encode_rune ec)
  | HDouble =>
    if (ec =? "\"%ch) || (ec =? "'"%ch) then ret (buf ++ encode_rune ec)
    else if ec =? "$"%ch then
      f <- option_on o_factory ;;
      ret (buf ++ (if f : bool then [] else ["\"%ch]) ++ encode_rune ec)
    else if ec =? "n"%ch then ret (buf ++ [10])
    else if ec =? "r"%ch then ret (buf ++ [13])
    else if ec =? "t"%ch then ret (buf ++ [9])
    else if ec =? "s"%ch then ret (buf ++ [" "%ch])
    else if ec =? "u"%ch then appendUnicode buf
    else
      hex <- option_on o_hex ;;
      if (ec =? "x"%ch) && hex then appendHexadec buf
      else ret (buf ++ "\"%ch :: encode_rune ec)
  end.

(** convertNamedAccessLHS (lexer.go:1205-1230).  [None]: a failed type
    assertion.  The boolean: a new node was made (the caller compares
    pointers). *)
Fixpoint convertNamedAccessLHS (e : expr) (start : Z) : option (expr * bool) :=
  match e with
  | EBin p KNamedAccess _ lhs rhs =>
    let mk x := EBin (mkpos start (p_len p + 1)) KNamedAccess [] x rhs in
    match lhs with
    | EQName q _ => Some (mk (EUn (mkpos start (p_len q + 1)) KVariable lhs), true)
    | EAccess q o ks =>
      Some (mk (match o with
                | EQName qq _ =>
                  EAccess (mkpos start (p_len q + 1)) (EUn (mkpos start (p_len qq + 1)) KVariable o) ks
                | _ => lhs
                end), true)
    | EBin _ KNamedAccess _ _ _ =>
      match convertNamedAccessLHS lhs start with
      | Some (x, _) => Some (mk x, true)
      | None => None
      end
    | ECallMethod q _ f args lam =>
      match convertNamedAccessLHS f start with
      | Some (x, _) => Some (mk (ECallMethod (mkpos start (p_len q + 1)) true x args lam), true)
      | None => None
      end
    | _ => Some (e, false)
    end
  | _ => None
  end.

(** stripIndent (lexer.go:1651-1664) *)
Definition stripIndent (indentStrip : Z) : M unit :=
  start <- getPos ;;
  while (fun n =>
    if 0 <? n then
      '(c, s) <- peek ;;
      if (c =? 9) || (c =? " "%ch) then advance s ;; ret (inl (n - 1))
      else setPos start ;; ret (inr tt)
    else ret (inr tt)) indentStrip.

(** isRegexpAcceptable (lexer.go:1719-1728) *)
Definition isRegexpAcceptable (t : tok) : bool :=
  match t with
  | TRp | TRb | TTypeName | TIdentifier | TBoolean | TInteger | TFloat | TString
  | THeredoc | TConcatenatedString | TRegexp | TVariable => false
  | _ => true
  end.

(** extractFlags (lexer.go:1563-1580) *)
Fixpoint extract_flags (start : Z) (s : str) : M (list Z) :=
  match s with
  | [] => ret []
  | flag :: s' =>
    if existsb (Z.eqb flag) ["t"%ch; "r"%ch; "n"%ch; "s"%ch; "u"%ch; "$"%ch] then
      r <- extract_flags start s' ;; ret (flag :: r)
    else if flag =? "L"%ch then r <- extract_flags start s' ;; ret (10 :: r)
    else
      setPos start ;;
      issue2 LEX_HEREDOC_ILLEGAL_ESCAPE [("flag"%string, encode_rune flag)]
  end.
Definition extractFlags (start : Z) : M (list Z) := s <- from start ;; extract_flags start s.

(** consumeBacktickedString (lexer.go:1232-1244) *)
Definition consumeBacktickedString : M unit :=
  start <- getPos ;;
  '(_, (c, sz)) <- skip_while (fun c => negb (c =? 0) && negb (c =? "`"%ch)) ;;
  if c =? 0 then unterminatedQuote (start - 1) "`"%ch
  else s <- from start ;; settokenValue TString (VStr s) ;; advance sz.

(** ** The heredoc declaration (lexer.go:1334-1424) *)
Record hdecl := mkhdecl {
  h_tag : str; h_syntax : str; h_flags : option (list Z);
  h_quoteStart : Z; h_syntaxStart : Z; h_escapeStart : Z }.

(** the loop findTagEnd: yields the declaration and heredocTagEnd *)
Definition tagEnd_step (start heredocStart : Z) (d : hdecl) : M (hdecl + (hdecl * Z)) :=
  '(c, n) <- peek ;;
  if (c =? 0) || (c =? 10) then setPos heredocStart ;; issue LEX_HEREDOC_DECL_UNTERMINATED
  else if c =? ")"%ch then
    syntax <- (if 0 <? h_syntaxStart d then from (h_syntaxStart d) else ret (h_syntax d)) ;;
    flags <- (if 0 <? h_escapeStart d then f <- extractFlags (h_escapeStart d) ;; ret (Some f)
              else ret (h_flags d)) ;;
    tag <- (match h_tag d with [] => from start | t => ret t end) ;;
    advance n ;;
    p <- getPos ;;
    ret (inr (mkhdecl tag syntax flags (h_quoteStart d) (h_syntaxStart d) (h_escapeStart d), p))
  else if c =? ":"%ch then
    if 0 <? h_syntaxStart d then issue LEX_HEREDOC_MULTIPLE_SYNTAX
    else
      tag <- (match h_tag d with [] => from start | t => ret t end) ;;
      advance n ;;
      p <- getPos ;;
      ret (inl (mkhdecl tag (h_syntax d) (h_flags d) (h_quoteStart d) p (h_escapeStart d)))
  else if c =? "/"%ch then
    if 0 <? h_escapeStart d then issue LEX_HEREDOC_MULTIPLE_ESCAPE
    else
      d' <- (match h_tag d with
             | [] => t <- from start ;;
                     ret (mkhdecl t (h_syntax d) (h_flags d) (h_quoteStart d) (h_syntaxStart d) (h_escapeStart d))
             | t =>
               if 0 <? h_syntaxStart d then
                 s <- from (h_syntaxStart d) ;;
                 ret (mkhdecl t s (h_flags d) (h_quoteStart d) (-1) (h_escapeStart d))
               else ret d
             end) ;;
      advance n ;;
      p <- getPos ;;
      ret (inl (mkhdecl (h_tag d') (h_syntax d') (h_flags d') (h_quoteStart d') (h_syntaxStart d') p))
  else if c =? """"%ch then
    match h_tag d with
    | _ :: _ => issue LEX_HEREDOC_MULTIPLE_TAG
    | [] =>
      advance n ;;
      quoteStart <- getPos ;;
      '(_, (c, n)) <- skip_while (fun c => negb ((c =? 0) || (c =? 10) || (c =? """"%ch))) ;;
      if (c =? 0) || (c =? 10) then setPos heredocStart ;; issue LEX_HEREDOC_DECL_UNTERMINATED
      else
        p <- getPos ;;
        if quoteStart =? p then setPos heredocStart ;; issue LEX_HEREDOC_EMPTY_TAG
        else
          tag <- from quoteStart ;;
          advance n ;;
          ret (inl (mkhdecl tag (h_syntax d) (h_flags d) quoteStart (h_syntaxStart d) (h_escapeStart d)))
    end
  else advance n ;; ret (inl d).

(** the loop findStartOfText (lexer.go:1430-1466): yields c and
    heredocContentStart *)
Definition startOfText_step (heredocStart : Z) (st : Z * Z) : M ((Z * Z) + (Z * Z)) :=
  let '(c, sz) := st in
  if c =? 0 then setPos heredocStart ;; issue LEX_HEREDOC_UNTERMINATED
  else if c =? "#"%ch then '(c, _) <- skipWhite true ;; ret (inl (c, sz))
  else if c =? "/"%ch then
    n <- getPos ;;
    advance sz ;;
    '(c, _) <- next ;;
    if c =? "*"%ch then setPos n ;; '(c, _) <- skipWhite true ;; ret (inl (c, sz))
    else ret (inl (c, sz))
  else if c =? 10 then
    modify (fun x => if 0 <=? c_nls x then with_nls (-1) (with_pos (c_nls x) x)
                     else with_pos (c_pos x + sz) x) ;;
    p <- getPos ;;
    ret (inr (c, p))
  else advance sz ;; '(c, sz) <- peek ;; ret (inl (c, sz)).

(** the loop findEndOfText (lexer.go:1468-1528): state c, suppressLastNL,
    indentStrip; yields heredocContentEnd, heredocEnd, indentStrip *)
Definition endOfText_step (heredocStart : Z) (tag : str) (st : Z * bool * Z)
  : M ((Z * bool * Z) + (Z * Z * Z)) :=
  let '(c, suppressLastNL, indentStrip) := st in
  if c =? 0 then setPos heredocStart ;; issue LEX_HEREDOC_UNTERMINATED
  else if c =? 10 then
    lineStart <- getPos ;;
    '(c, n) <- skipWhiteInLiteral ;;
    if c =? 0 then setPos heredocStart ;; issue LEX_HEREDOC_UNTERMINATED
    else
      '(c, n, indentStrip) <- (if c =? "|"%ch then
                                 '(c', n') <- skipWhiteInLiteral ;; ret (c', n', n - lineStart)
                               else ret (c, n, indentStrip)) ;;
      '(c, n, suppressLastNL) <- (if c =? "-"%ch then
                                    '(c', n') <- skipWhiteInLiteral ;; ret (c', n', true)
                                  else ret (c, n, suppressLastNL)) ;;
      if negb (c =? fst (decode_rune tag)) then ret (inl (c, suppressLastNL, indentStrip))
      else
        text <- ask c_text ;;
        let tagEnd := n + zlen tag in
        if (tagEnd <=? zlen text) && str_eqb tag (slice text n tagEnd) then
          setPos tagEnd ;;
          '(c, n) <- skipWhiteInLiteral ;;
          if (c =? 10) || (c =? 0) then
            if suppressLastNL : bool then
              let e := lineStart - 1 in
              if (e - 1 <? 0) || (zlen text <=? e - 1) then throw (GoPanic GoIndex)
              else ret (inr (if nth (Z.to_nat (e - 1)) text 0 =? 13 then e - 1 else e, n, indentStrip))
            else ret (inr (lineStart, n, indentStrip))
          else ret (inl (c, suppressLastNL, indentStrip))
        else ret (inl (c, suppressLastNL, indentStrip))
  else '(c, _) <- next ;; ret (inl (c, suppressLastNL, indentStrip)).

(** ** Functions that reach the parser *)
Section Rec.
Variable rec : forall A, fn A -> M A.
Local Notation nextToken := (rec FNextToken).

(** interpolate (lexer.go:1159-1203) *)
Definition interpolate (start : Z) : M expr :=
  '(c, sz) <- peek ;;
  if c =? "{"%ch then
    advance sz ;;
    nextToken ;;
    e <- rec (FParse TRc true) ;;
    p <- getPos ;;
    e' <- (match e with
           | EQName _ _ => ret (EUn (mkpos start (p - start)) KVariable e)
           | EAccess q o ks =>
             match o with
             | EQName qq _ =>
               ret (EAccess (mkpos start (p_len q + 1))
                            (EUn (mkpos start (p_len qq + 1)) KVariable o) ks)
             | _ => ret e
             end
           | ECallMethod q _ f args lam =>
             match f with
             | EBin _ KNamedAccess _ _ _ =>
               match convertNamedAccessLHS f start with
               | Some (f', true) => ret (ECallMethod (mkpos start (p_len q + 1)) true f' args lam)
               | Some (_, false) => ret e
               | None => throw (GoPanic GoTypeAssert)
               end
             | _ => ret e
             end
           | _ => ret e
           end) ;;
    ret (EUn (mkpos start (p - start)) KText e')
  else
    setToken TVariable ;;
    (if (c =? ":"%ch) || isLowercaseLetter c || isDecimalDigit c then nextToken else ret tt) ;;
    t <- curTok ;;
    if negb (tok_eqb t TIdentifier) then setPos start ;; issue LEX_MALFORMED_INTERPOLATION
    else
      v <- ask c_val ;;
      p <- getPos ;;
      match v with
      | VStr s =>
        ret (EUn (mkpos start (p - start)) KText
               (EUn (mkpos start (p - start)) KVariable
                  (EQName (mkpos (start + 1) (p - (start + 1))) s)))
      | _ => throw (GoPanic GoTypeAssert)
      end.

(** handleInterpolation (lexer.go:1145-1155); the new, empty buffer is left
    to the callers *)
Definition handleInterpolation (start : Z) (segments : list expr) (buf : str) : M (list expr) :=
  tsp <- ask c_tsp ;;
  p <- getPos ;;
  let segments := match buf with
                  | [] => segments
                  | _ => segments ++ [EString (mkpos tsp (p - tsp)) buf]
                  end in
  e <- interpolate start ;;
  modify (fun c => with_tsp (c_pos c) c) ;;
  ret (segments ++ [e]).

(** The loop of consumeDelimitedString (lexer.go:1002-1045): one round *)
Definition delim_body (delim dstart : Z) (h : handler) (buf : str) (ec start : Z)
           (segs : option (list expr)) : M (option (list expr)) :=
  let continue buf ec start segs := rec (FDelim delim dstart h buf ec start segs) in
  let literally := 
    '(ec', _) <- next ;; continue (buf ++ encode_rune ec) ec' start segs in
  if ec =? 0 then
    if negb (delim =? "/"%ch) then unterminatedQuote dstart delim
    else setToken TDivide ;; ret segs
  else if ec =? delim then settokenValue TString (VStr buf) ;; ret segs
  else if ec =? "\"%ch then
    '(ec, _) <- next ;;
    if ec =? 0 then unterminatedQuote dstart delim
    else if ec =? delim then
      '(ec', _) <- next ;; continue (buf ++ encode_rune delim) ec' start segs
    else
      buf <- handle_escape h buf ec ;;
      '(ec', _) <- next ;; continue buf ec' start segs
  else if ec =? "$"%ch then
    match segs with
    | Some ss =>
      ss' <- handleInterpolation start ss buf ;;
      '(ec', start') <- next ;; continue [] ec' start' (Some ss')
    | None => literally
    end
  else literally.
(** consumeDelimitedString (lexer.go:998-1046) *)
Definition consumeDelimitedString (delim dstart : Z) (segs : option (list expr)) (h : handler)
  : M (option (list expr)) :=
  '(ec, start) <- next ;;
  rec (FDelim delim dstart h [] ec start segs).

(** consumeSingleQuotedString (lexer.go:1307-1314) *)
Definition consumeSingleQuotedString : M unit :=
  p <- getPos ;;
  consumeDelimitedString "'"%ch (p - 1) None HSingle ;; ret tt.

(** consumeRegexp (lexer.go:1320-1332) *)
Definition consumeRegexp : M bool :=
  start <- getPos ;;
  consumeDelimitedString "/"%ch (start - 1) None HRegexp ;;
  t <- curTok ;;
  if tok_eqb t TString then
    modify (fun c => with_tok TRegexp (c_val c) c) ;; ret true
  else setPos start ;; ret false.

(** consumeDoubleQuotedString (lexer.go:1246-1305) *)
Definition value_string : M str :=      (* ctx.tokenValue.(string) *)
  v <- ask c_val ;; match v with VStr s => ret s | _ => throw (GoPanic GoTypeAssert) end.
Definition consumeDoubleQuotedString : M unit :=
  f <- option_on o_factory ;;
  p <- getPos ;;
  segs <- consumeDelimitedString """"%ch (p - 1) (if f : bool then Some [] else None) HDouble ;;
  if negb f then ret tt
  else
    tail <- value_string ;;
    tsp <- ask c_tsp ;;
    p <- getPos ;;
    let str_node := EString (mkpos tsp (p - tsp)) tail in
    let segs := match segs with
                | Some ((_ :: _) as ss) => match tail with [] => ss | _ => ss ++ [str_node] end
                | Some [] | None => [str_node]
                end in
    match segs with
    | [] => throw (GoPanic GoElems)
    | [EString _ _] => ret tt
    | s0 :: _ =>
      let firstPos := byteOffset s0 in
      settokenValue TConcatenatedString (VExpr (EConcat (mkpos firstPos (p - firstPos)) segs))
    end.

(** The loop of applyEscapes (lexer.go:1586-1648): one round *)
Definition apply_body (end_ indent : Z) (flags : list Z) (bld : str) (c start : Z)
           (segs : option (list expr)) : M (str * option (list expr)) :=
  let continue bld segs :=
    '(c', start') <- next ;; rec (FApply end_ indent flags bld c' start' segs) in
  let plain bld c start :=
    match (c =? "$"%ch), segs with
    | true, Some ss => ss' <- handleInterpolation start ss bld ;; continue [] (Some ss')
    | _, _ =>
      (if c =? 10 then stripIndent indent else ret tt) ;;
      continue (bld ++ encode_rune c) segs
    end in
  if negb (c =? 0) && (start <? end_) then
    if negb (c =? "\"%ch) then plain bld c start
    else
      '(c, start) <- next ;;
      if end_ <=? start then ret (bld ++ ["\"%ch], segs)
      else if negb ((c <? 128) && existsb (Z.eqb c) flags) then plain (bld ++ ["\"%ch]) c start
      else
        bld' <- (if c =? "r"%ch then ret (bld ++ [13])
                 else if c =? "n"%ch then ret (bld ++ [10])
                 else if c =? "t"%ch then ret (bld ++ [9])
                 else if c =? "s"%ch then ret (bld ++ [" "%ch])
                 else if c =? "u"%ch then appendUnicode bld
                 else if c =? 10 then stripIndent indent ;; ret bld
                 else ret (bld ++ encode_rune c)) ;;
        continue bld' segs
  else ret (bld, segs).
(** applyEscapes (lexer.go:1582-1649) *)
Definition applyEscapes (end_ indent : Z) (flags : list Z) (segs : option (list expr))
  : M (str * option (list expr)) :=
  stripIndent indent ;;
  '(c, start) <- next ;;
  rec (FApply end_ indent flags [] c start segs).

(** consumeHeredocString (lexer.go:1334-1561) *)
Definition consumeHeredocString : M unit :=
  start <- getPos ;;
  let heredocStart := start - 2 in
  '(d, heredocTagEnd) <- while (tagEnd_step start heredocStart) (mkhdecl [] [] None (-1) (-1) (-1)) ;;
  match h_tag d with
  | [] => setPos heredocStart ;; issue LEX_HEREDOC_EMPTY_TAG
  | _ =>
    '(c, sz) <- peek ;;
    '(c, contentStart) <- while (startOfText_step heredocStart) (c, sz) ;;
    '(contentEnd, heredocEnd, indentStrip) <-
        while (endOfText_step heredocStart (h_tag d)) (c, false, 0) ;;
    let continue_after :=             (* lexer.go:1542-1543, 1553-1554 *)
        modify (fun c => with_nls (heredocEnd + 1) (with_pos heredocTagEnd c)) in
    let literal heredoc :=            (* lexer.go:1553-1560 *)
        continue_after ;;
        f <- option_on o_factory ;;
        if f : bool then
          settokenValue THeredoc
            (VExpr (EHeredoc (mkpos heredocStart (contentEnd - heredocStart)) (h_syntax d)
                             (EString (mkpos contentStart (contentEnd - contentStart)) heredoc)))
        else settokenValue TString (VStr heredoc) in
    if (match h_flags d with Some _ => true | None => false end)
       || (0 <=? h_quoteStart d) || (0 <? indentStrip)
    then
      setPos contentStart ;;
      f <- option_on o_factory ;;
      '(heredoc, segs) <-
          applyEscapes contentEnd indentStrip
                       (match h_flags d with Some fl => fl | None => [] end)
                       (if (0 <=? h_quoteStart d) && f then Some [] else None) ;;
      match segs with
      | Some ((_ :: _) as ss) =>
        tsp <- ask c_tsp ;;
        p <- getPos ;;
        let ss := match heredoc with [] => ss | _ => ss ++ [EString (mkpos tsp (p - tsp)) heredoc] end in
        continue_after ;;
        settokenValue THeredoc
          (VExpr (EHeredoc (mkpos heredocStart (contentEnd - heredocStart)) (h_syntax d)
                           (EConcat (mkpos contentStart (contentEnd - contentStart)) ss)))
      | _ => literal heredoc
      end
    else
      setPos contentEnd ;;
      heredoc <- from contentStart ;;
      literal heredoc
  end.

(** consumeEPP (lexer.go:1048-1137); the loop over an EPP comment first
    (lexer.go:1072-1091), where [prev] is the rune before *)
Definition epp_comment (prev0 : Z) : M bool :=
  while (fun prev =>
    '(ec, _) <- next ;;
    if ec =? 0 then ret (inr false)
    else if ec =? "%"%ch then
      '(ec, sz) <- peek ;;
      if (ec =? ">"%ch) && negb (prev =? "%"%ch) then advance sz ;; ret (inr true)
      else ret (inl ec)
    else ret (inl ec)) prev0.
(** one round of the loop: state buf, lastNonWS; yields whether nextToken must
    be called *)
Definition epp_step (st : str * Z) : M ((str * Z) + bool) :=
  let '(buf, lastNonWS) := st in
  '(ec, start) <- next ;;
  let found buf := (* lexer.go:1101-1106 *)
    setPos start ;;
    settokenValue TRenderString (VStr buf) ;;
    ret (inr (match buf with [] => true | _ => false end)) in
  if ec =? 0 then
    (match buf with [] => setToken TEnd | _ => settokenValue TRenderString (VStr buf) end) ;;
    ret (inr false)
  else if ec =? "<"%ch then
    '(ec, sz) <- peek ;;
    if negb (ec =? "%"%ch) then
      let buf := buf ++ ["<"%ch] in ret (inl (buf, zlen buf))
    else
      advance sz ;;
      '(ec, sz) <- peek ;;
      if ec =? "%"%ch then
        advance sz ;;
        let buf := buf ++ ["<"%ch; "%"%ch] in ret (inl (buf, zlen buf))
      else if ec =? "#"%ch then
        advance sz ;;
        foundEnd <- epp_comment ec ;;
        if foundEnd : bool then ret (inl (buf, lastNonWS))
        else setPos start ;; issue LEX_UNBALANCED_EPP_COMMENT
      else if ec =? "-"%ch then advance sz ;; found (slice buf 0 lastNonWS)
      else if ec =? "="%ch then advance sz ;; found buf
      else found buf
  else if (ec =? " "%ch) || (ec =? 9) then ret (inl (buf ++ encode_rune ec, lastNonWS))
  else if ec =? "%"%ch then
    '(ec, sz) <- peek ;;
    if ec =? "%"%ch then
      advance sz ;;
      '(ec, sz) <- peek ;;
      if ec =? ">"%ch then
        advance sz ;;
        let buf := buf ++ ["%"%ch; ">"%ch] in ret (inl (buf, zlen buf))
      else let buf := buf ++ ["%"%ch; "%"%ch] in ret (inl (buf, zlen buf))
    else let buf := buf ++ ["%"%ch] in ret (inl (buf, zlen buf))
  else let buf := buf ++ encode_rune ec in ret (inl (buf, zlen buf)).
Definition consumeEPP : M unit :=
  again <- while epp_step ([], 0) ;;
  if again : bool then nextToken else ret tt.

(** ** nextToken (lexer.go:350-743) *)

(** [c, sz = Peek(); if c == x { Advance(sz); setToken(t) } else ...] *)
Fixpoint op_choice (alts : list (Z * tok)) (dflt : M unit) (c sz : Z) : M unit :=
  match alts with
  | [] => dflt
  | (x, t) :: alts' => if c =? x then advance sz ;; setToken t else op_choice alts' dflt c sz
  end.
Definition op_token (alts : list (Z * tok)) (dflt : M unit) : M unit :=
  '(c, sz) <- peek ;; op_choice alts dflt c sz.

(** 1-9 (lexer.go:358-371) *)
Definition lex_number (start : Z) : M unit :=
  skipDecimalDigits ;;
  '(c, sz) <- peek ;;
  if (c =? "."%ch) || (c =? "e"%ch) || (c =? "E"%ch) then advance sz ;; consumeFloat start c
  else
    letter <- isLetterM c ;;
    if letter : bool then issue LEX_DIGIT_EXPECTED
    else
      s <- from start ;;
      settokenValue TInteger (VInt (parse_int s 10 64)) ;;
      modify (with_radix 10).

(** 0 (lexer.go:684-729) *)
Definition lex_zero (start : Z) : M unit :=
  modify (with_radix 10) ;;
  '(c, sz) <- peek ;;
  if c =? 0 then settokenValue TInteger (VInt 0)
  else if (c =? "x"%ch) || (c =? "X"%ch) then
    advance sz ;;
    hexStart <- getPos ;;
    '(_, (c, _)) <- skip_while isHexDigit ;;
    p <- getPos ;;
    if (p =? hexStart) || isLetter c then issue LEX_HEXDIGIT_EXPECTED
    else
      s <- from hexStart ;;
      modify (with_radix 16) ;;
      settokenValue TInteger (VInt (parse_int s 16 64))
  else if (c =? "."%ch) || (c =? "e"%ch) || (c =? "E"%ch) then advance sz ;; consumeFloat start c
  else
    octalStart <- getPos ;;
    '(_, (c, _)) <- skip_while isOctalDigit ;;
    letter <- isLetterM c ;;
    if isDecimalDigit c || letter then issue LEX_OCTALDIGIT_EXPECTED
    else
      p <- getPos ;;
      if octalStart <? p then
        s <- from octalStart ;;
        modify (with_radix 8) ;;
        settokenValue TInteger (VInt (parse_int s 8 64))
      else settokenValue TInteger (VInt 0).

(** $ (lexer.go:658-682) *)
Definition lex_variable (start : Z) : M unit :=
  '(c, sz) <- peek ;;
  '(c, sz) <- (if c =? ":"%ch then
                 advance sz ;;
                 '(c, sz) <- peek ;;
                 if negb (c =? ":"%ch) then setPos start ;; issue LEX_INVALID_VARIABLE_NAME
                 else advance sz ;; peek
               else ret (c, sz)) ;;
  if isLowercaseLetter c then advance sz ;; consumeQualifiedName start TVariable
  else if isDecimalDigit c then
    advance sz ;;
    skipDecimalDigits ;;
    s <- from (start + 1) ;;
    settokenValue TVariable (VInt (parse_int s 10 64))
  else
    letter <- isLetterM c ;;
    if letter : bool then issue LEX_INVALID_VARIABLE_NAME
    else settokenValue TVariable (VStr []).

(** '(' (lexer.go:420-431) *)
Definition lex_paren (start : Z) : M unit :=
  savePos <- getPos ;;
  modify (fun c => with_pos (c_bol c) c) ;;
  '(_, firstNonWhite) <- skipWhite false ;;
  setPos savePos ;;
  setToken (if firstNonWhite =? start then TWslp else TLp).

(** : (lexer.go:448-462) *)
Definition lex_colon (start : Z) : M unit :=
  setToken TColon ;;
  '(c, sz) <- peek ;;
  if c =? ":"%ch then
    advance sz ;;
    '(c, _) <- next ;;
    if isUppercaseLetter c then consumeQualifiedName start TTypeName
    else if isLowercaseLetter c then consumeQualifiedName start TIdentifier
    else setPos start ;; issue LEX_DOUBLE_COLON_NOT_FOLLOWED_BY_NAME
  else ret tt.

(** - (lexer.go:464-495) *)
Definition lex_minus : M unit :=
  '(c, sz) <- peek ;;
  epp <- option_on o_epp ;;
  if c =? "="%ch then advance sz ;; setToken TSubtractAssign
  else if c =? ">"%ch then advance sz ;; setToken TInEdge
  else if (c =? "%"%ch) && epp then
    advance sz ;;
    '(c, sz) <- peek ;;
    if c =? ">"%ch then
      advance sz ;;
      '(_, (c, sz)) <- skip_while (fun c => (c =? " "%ch) || (c =? 9)) ;;
      (if c =? 10 then advance sz else ret tt) ;;
      consumeEPP
    else issue2 LEX_INVALID_OPERATOR [("op"%string, lit "-%")]
  else setToken TSubtract.

(** % (lexer.go:512-520) *)
Definition lex_percent : M unit :=
  setToken TRemainder ;;
  epp <- option_on o_epp ;;
  if epp : bool then
    '(c, sz) <- peek ;;
    if c =? ">"%ch then advance sz ;; consumeEPP else ret tt
  else ret tt.

(** < (lexer.go:569-614) *)
Definition lex_less : M unit :=
  '(c, sz) <- peek ;;
  epp <- option_on o_epp ;;
  if c =? "="%ch then advance sz ;; setToken TLessEqual
  else if c =? "<"%ch then advance sz ;; op_token [("|"%ch, TLlcollect)] (setToken TLshift)
  else if c =? "|"%ch then advance sz ;; setToken TLcollect
  else if c =? "-"%ch then advance sz ;; setToken TOutEdge
  else if c =? "~"%ch then advance sz ;; setToken TOutEdgeSub
  else if (c =? "%"%ch) && epp then
    advance sz ;;
    '(c, sz) <- peek ;;
    if c =? "="%ch then advance sz ;; setToken TRenderExpr
    else if c =? "-"%ch then advance sz ;; nextToken
    else nextToken
  else setToken TLess.

(** | (lexer.go:616-644) *)
Definition lex_pipe : M unit :=
  '(c, sz) <- peek ;;
  if c =? ">"%ch then advance sz ;; op_token [(">"%ch, TRrcollect)] (setToken TRcollect)
  else
    t <- curTok ;;
    if tok_eqb t TPipe then setToken TPipeEnd
    else
      pos <- getPos ;;
      '(n, _) <- skipWhite false ;;
      setPos pos ;;
      epp <- option_on o_epp ;;
      if (n =? "{"%ch) || (n =? ">"%ch) || (epp && ((n =? "%"%ch) || (n =? "-"%ch)))
      then setToken TPipeEnd else setToken TPipe.

(** @ (lexer.go:557-567) *)
Definition lex_at : M unit :=
  '(c, sz) <- peek ;;
  if c =? "@"%ch then advance sz ;; setToken TAtat
  else if c =? "("%ch then advance sz ;; consumeHeredocString
  else setToken TAt.

Definition unexpected_char {A} (start : Z) (c : Z) : M A :=   (* lexer.go:738-740 *)
  setPos start ;; issue2 LEX_UNEXPECTED_TOKEN [("token"%string, encode_rune c)].

(** the body of nextToken after skipWhite (lexer.go:356-742) *)
Definition lex_token (scanStart start c : Z) : M unit :=
  if in_range "1"%ch c "9"%ch then lex_number start
  else if isUppercaseLetter c then consumeQualifiedName start TTypeName
  else if isLowercaseLetter c then consumeQualifiedName start TIdentifier
  else if c =? 0 then setToken TEnd
  else if c =? "="%ch then
    op_token [("="%ch, TEqual); ("~"%ch, TMatch); (">"%ch, TFarrow)] (setToken TAssign)
  else if c =? "{"%ch then t <- curTok ;; setToken (if tok_eqb t TQmark then TSelc else TLc)
  else if c =? "}"%ch then setToken TRc
  else if c =? "["%ch then
    setToken (if (scanStart <? start) || (start =? 0) then TListstart else TLb)
  else if c =? "]"%ch then setToken TRb
  else if c =? "("%ch then lex_paren start
  else if c =? ")"%ch then setToken TRp
  else if c =? ","%ch then setToken TComma
  else if c =? ";"%ch then setToken TSemicolon
  else if c =? "."%ch then setToken TDot
  else if c =? "?"%ch then setToken TQmark
  else if c =? ":"%ch then lex_colon start
  else if c =? "-"%ch then lex_minus
  else if c =? "+"%ch then op_token [("="%ch, TAddAssign); (">"%ch, TParrow)] (setToken TAdd)
  else if c =? "*"%ch then setToken TMultiply
  else if c =? "%"%ch then lex_percent
  else if c =? "!"%ch then op_token [("="%ch, TNotEqual); ("~"%ch, TNotMatch)] (setToken TNot)
  else if c =? ">"%ch then op_token [("="%ch, TGreaterEqual); (">"%ch, TRshift)] (setToken TGreater)
  else if c =? "~"%ch then
    op_token [(">"%ch, TInEdgeSub)]
             (setPos start ;; issue2 LEX_UNEXPECTED_TOKEN [("token"%string, lit "~")])
  else if c =? "@"%ch then lex_at
  else if c =? "<"%ch then lex_less
  else if c =? "|"%ch then lex_pipe
  else if c =? """"%ch then consumeDoubleQuotedString
  else if c =? "'"%ch then consumeSingleQuotedString
  else if c =? "/"%ch then
    t <- curTok ;;
    if isRegexpAcceptable t then
      found <- consumeRegexp ;; if found : bool then ret tt else setToken TDivide
    else setToken TDivide
  else if c =? "$"%ch then lex_variable start
  else if c =? "0"%ch then lex_zero start
  else if c =? "`"%ch then
    bt <- option_on o_backtick ;;
    if bt : bool then consumeBacktickedString else unexpected_char start c
  else unexpected_char start c.

Definition nextToken_body : M unit :=
  scanStart <- getPos ;;
  '(c, start) <- skipWhite false ;;
  modify (with_tsp start) ;;
  lex_token scanStart start c.

End Rec.
