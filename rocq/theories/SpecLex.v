(** * SpecLex: the lexical grammar of Puppet source

    What the tokens of a source are, as a relation between a list of tokens
    and the text they are written as.  Nothing here refers to the lexer. *)
From Verif Require Import Base Float Tokens Ast Ctx.
From Verif Require Export SpecText.

(** ** Characters *)
Definition lower (c : Z) : Prop := 97 <= c <= 122.
Definition upper (c : Z) : Prop := 65 <= c <= 90.
Definition digit (c : Z) : Prop := 48 <= c <= 57.
Definition wordchar (c : Z) : Prop := lower c \/ upper c \/ digit c \/ c = "_"%ch.

(** ** What may stand between tokens *)
(** [has_close rs]: the runes contain the end of a block comment *)
Definition has_close (rs : list Z) : Prop := exists a b, rs = a ++ "*"%ch :: "/"%ch :: b.
(** [gap brk g]: [g] is white space and comments; [brk] tells whether a line
    ends in it (outside of block comments) *)
Inductive gap : bool -> str -> Prop :=
| gap_nil : gap false []
| gap_blank brk b g : b = 32 \/ b = 9 \/ b = 13 -> gap brk g -> gap brk (b :: g)
| gap_newline brk g : gap brk g -> gap true (10 :: g)
| gap_line brk rs g : Forall rune_ok rs -> ~ In 10 rs -> gap brk g -> gap true ("#"%ch :: encode rs ++ 10 :: g)
| gap_block brk rs g : Forall rune_ok rs -> ~ has_close (rs ++ ["*"%ch]) -> gap brk g ->
    gap brk ("/"%ch :: "*"%ch :: encode rs ++ "*"%ch :: "/"%ch :: g).
(** at the end of the source a comment need not be closed by a newline *)
Inductive end_gap : str -> Prop :=
| end_plain brk g : gap brk g -> end_gap g
| end_comment brk g rs : gap brk g -> Forall rune_ok rs -> ~ In 10 rs -> end_gap (g ++ "#"%ch :: encode rs).

(** ** Words *)
Inductive qualified (first : Z -> Prop) : str -> Prop :=
| q_one h t : first h -> Forall wordchar t -> qualified first (h :: t)
| q_more h t rest : first h -> Forall wordchar t -> qualified first rest ->
    qualified first (h :: t ++ ":"%ch :: ":"%ch :: rest).
Definition reserved : list (string * tok) := [
  ("and", TAnd); ("application", TApplication); ("attr", TAttr); ("case", TCase); ("class", TClass);
  ("consumes", TConsumes); ("define", TDefine); ("function", TFunction);
  ("else", TElse); ("elsif", TElsif); ("if", TIf); ("in", TIn); ("inherits", TInherits);
  ("node", TNode); ("or", TOr); ("private", TPrivate); ("produces", TProduces); ("site", TSite);
  ("type", TType); ("undef", TUndef); ("unless", TUnless)]%string.
(** words that are never plain names *)
Definition reserved_words : list string := ("true" :: "false" :: "default" :: "plan" :: map fst reserved)%string.

(** ** Numbers *)
(** the number the digits [ds] denote, most significant first *)
Definition value (base : Z) (ds : list Z) : Z := fold_left (fun a d => a * base + d) ds 0.
Definition decimals (ds : list Z) : str := map (fun d => 48 + d) ds.
(** a hexadecimal digit in either case *)
Definition hex_char (d c : Z) : Prop :=
  (0 <= d <= 9 /\ c = 48 + d) \/ (10 <= d <= 15 /\ (c = 87 + d \/ c = 55 + d)).

(** ** Strings *)
(** [sq src rs]: in a single quoted string, [src] stands for the runes [rs] *)
Inductive sq : list Z -> list Z -> Prop :=
| sq_nil : sq [] []
| sq_plain r src rs : rune_ok r -> r <> "'"%ch -> r <> "\"%ch -> sq src rs -> sq (r :: src) (r :: rs)
| sq_quote src rs : sq src rs -> sq ("\"%ch :: "'"%ch :: src) ("'"%ch :: rs)
| sq_backslash src rs : sq src rs -> sq ("\"%ch :: "\"%ch :: src) ("\"%ch :: rs)
| sq_other r src rs : rune_ok r -> r <> "'"%ch -> r <> "\"%ch -> sq src rs ->
    sq ("\"%ch :: r :: src) ("\"%ch :: r :: rs).
(** [dq hex src rs]: the same for a double quoted string without
    interpolations; [hex] is true if \x is an escape *)
Inductive dq (hex : bool) : list Z -> list Z -> Prop :=
| dq_nil : dq hex [] []
| dq_plain r src rs : rune_ok r -> r <> """"%ch -> r <> "\"%ch -> r <> "$"%ch -> dq hex src rs -> dq hex (r :: src) (r :: rs)
| dq_same r src rs : In r [""""%ch; "\"%ch; "'"%ch; "$"%ch] -> dq hex src rs -> dq hex ("\"%ch :: r :: src) (r :: rs)
| dq_control e r src rs : In (e, r) [("n"%ch, 10); ("r"%ch, 13); ("t"%ch, 9); ("s"%ch, 32)] -> dq hex src rs ->
    dq hex ("\"%ch :: e :: src) (r :: rs)
| dq_u4 cs ds src rs : Forall2 hex_char ds cs -> List.length ds = 4%nat -> valid_rune (value 16 ds) = true ->
    dq hex src rs -> dq hex ("\"%ch :: "u"%ch :: cs ++ src) (value 16 ds :: rs)
| dq_u cs ds src rs : Forall2 hex_char ds cs -> (2 <= List.length ds <= 6)%nat -> valid_rune (value 16 ds) = true ->
    dq hex src rs -> dq hex ("\"%ch :: "u"%ch :: "{"%ch :: cs ++ "}"%ch :: src) (value 16 ds :: rs)
| dq_other r src rs : rune_ok r -> ~ In r [""""%ch; "\"%ch; "'"%ch; "$"%ch; "n"%ch; "r"%ch; "t"%ch; "s"%ch; "u"%ch] ->
    (r = "x"%ch -> hex = false) -> dq hex src rs -> dq hex ("\"%ch :: r :: src) ("\"%ch :: r :: rs).
(** [rx src rs]: the same for a regular expression *)
Inductive rx : list Z -> list Z -> Prop :=
| rx_nil : rx [] []
| rx_plain r src rs : rune_ok r -> r <> "/"%ch -> r <> "\"%ch -> rx src rs -> rx (r :: src) (r :: rs)
| rx_slash src rs : rx src rs -> rx ("\"%ch :: "/"%ch :: src) ("/"%ch :: rs)
| rx_other r src rs : rune_ok r -> r <> "/"%ch -> rx src rs -> rx ("\"%ch :: r :: src) ("\"%ch :: r :: rs).

(** ** Floats: the text, without a sign *)
Definition exponent (s : str) : Prop :=
  exists e sign ds, (e = "e"%ch \/ e = "E"%ch) /\ (sign = [] \/ sign = ["-"%ch] \/ sign = ["+"%ch])
    /\ Forall (fun d => 0 <= d <= 9) ds /\ ds <> [] /\ s = e :: sign ++ decimals ds.
Inductive float_text : str -> Prop :=
| float_exp ds e : Forall (fun d => 0 <= d <= 9) ds -> (ds = [0] \/ 0 < hd 0 ds) -> exponent e -> float_text (decimals ds ++ e)
| float_point ds fs : Forall (fun d => 0 <= d <= 9) ds -> (ds = [0] \/ 0 < hd 0 ds) -> Forall (fun d => 0 <= d <= 9) fs -> fs <> [] ->
    float_text (decimals ds ++ "."%ch :: decimals fs)
| float_point_exp ds fs e : Forall (fun d => 0 <= d <= 9) ds -> (ds = [0] \/ 0 < hd 0 ds) -> Forall (fun d => 0 <= d <= 9) fs -> fs <> [] ->
    exponent e -> float_text (decimals ds ++ "."%ch :: decimals fs ++ e).

(** ** Punctuation *)
Definition punctuation : list (tok * string) := [
  (TAssign, "="); (TAddAssign, "+="); (TSubtractAssign, "-="); (TMultiply, "*"); (TDivide, "/"); (TRemainder, "%");
  (TSubtract, "-"); (TAdd, "+"); (TLshift, "<<"); (TRshift, ">>"); (TEqual, "=="); (TNotEqual, "!="); (TLess, "<");
  (TLessEqual, "<="); (TGreater, ">"); (TGreaterEqual, ">="); (TMatch, "=~"); (TNotMatch, "!~"); (TLcollect, "<|");
  (TLlcollect, "<<|"); (TRcollect, "|>"); (TRrcollect, "|>>"); (TFarrow, "=>"); (TParrow, "+>"); (TInEdge, "->");
  (TInEdgeSub, "~>"); (TOutEdge, "<-"); (TOutEdgeSub, "<~"); (TNot, "!"); (TAt, "@"); (TAtat, "@@"); (TLp, "(");
  (TWslp, "("); (TRp, ")"); (TLb, "["); (TListstart, "["); (TRb, "]"); (TLc, "{"); (TSelc, "{"); (TRc, "}");
  (TPipe, "|"); (TPipeEnd, "|"); (TComma, ","); (TDot, "."); (TQmark, "?"); (TColon, ":"); (TSemicolon, ";")]%string.

(** ** Tokens *)
(** [token_text o t v radix txt]: a token of kind [t] with value [v] may be
    written [txt]; [radix] is that of an integer *)
Inductive token_text (o : opts) : tok -> tval -> Z -> str -> Prop :=
| tt_end radix : token_text o TEnd VNil radix []
| tt_punct t s radix : In (t, s) punctuation -> token_text o t VNil radix (lit s)
| tt_reserved w t radix : In (w, t) reserved -> token_text o t (VStr (lit w)) radix (lit w)
| tt_true radix : token_text o TBoolean (VBool true) radix (lit "true")
| tt_false radix : token_text o TBoolean (VBool false) radix (lit "false")
| tt_default radix : token_text o TDefault VDefault radix (lit "default")
| tt_plan radix : token_text o (if o_tasks o then TPlan else TIdentifier) (VStr (lit "plan")) radix (lit "plan")
| tt_name w radix : qualified lower w -> ~ In w (map lit reserved_words) -> token_text o TIdentifier (VStr w) radix w
| tt_global_name w radix : qualified lower w -> token_text o TIdentifier (VStr (lit "::" ++ w)) radix (lit "::" ++ w)
| tt_type w radix : qualified upper w -> token_text o TTypeName (VStr w) radix w
| tt_global_type w radix : qualified upper w -> token_text o TTypeName (VStr (lit "::" ++ w)) radix (lit "::" ++ w)
| tt_var w radix : qualified lower w -> token_text o TVariable (VStr w) radix ("$"%ch :: w)
| tt_global_var w radix : qualified lower w -> token_text o TVariable (VStr (lit "::" ++ w)) radix (lit "$::" ++ w)
| tt_numeric_var ds radix : ds <> [] -> Forall (fun d => 0 <= d <= 9) ds -> value 10 ds < 2 ^ 63 ->
    token_text o TVariable (VInt (value 10 ds)) radix ("$"%ch :: decimals ds)
| tt_decimal ds : 0 < hd 0 ds -> Forall (fun d => 0 <= d <= 9) ds -> value 10 ds < 2 ^ 63 ->
    token_text o TInteger (VInt (value 10 ds)) 10 (decimals ds)
| tt_zero : token_text o TInteger (VInt 0) 10 (lit "0")
| tt_octal ds : ds <> [] -> Forall (fun d => 0 <= d <= 7) ds -> value 8 ds < 2 ^ 63 ->
    token_text o TInteger (VInt (value 8 ds)) 8 (lit "0" ++ decimals ds)
| tt_hex x ds cs : x = "x"%ch \/ x = "X"%ch -> ds <> [] -> Forall2 hex_char ds cs -> value 16 ds < 2 ^ 63 ->
    token_text o TInteger (VInt (value 16 ds)) 16 ("0"%ch :: x :: cs)
| tt_float txt radix : float_text txt -> token_text o TFloat (VFloat (parse_float txt)) radix txt
| tt_single src rs radix : sq src rs -> token_text o TString (VStr (encode rs)) radix ("'"%ch :: encode src ++ ["'"%ch])
| tt_double src rs radix : dq (o_hex o) src rs ->
    token_text o TString (VStr (encode rs)) radix (""""%ch :: encode src ++ [""""%ch])
| tt_backtick rs radix : o_backtick o = true -> Forall rune_ok rs -> ~ In "`"%ch rs ->
    token_text o TString (VStr (encode rs)) radix ("`"%ch :: encode rs ++ ["`"%ch])
| tt_regexp src rs radix : rx src rs -> hd 0 src <> "*"%ch ->
    token_text o TRegexp (VStr (encode rs)) radix ("/"%ch :: encode src ++ ["/"%ch]).

(** ** What may not follow a token directly.  A sign may not follow a number of
    one digit: the lexer takes it for a part of the number.  (A percent sign after
    [-] or [<] and a [>] after a percent sign are tags of a template.) *)
Definition first_byte (s : str) : Z := match s with b :: _ => b | [] => 0 end.
Definition one_of (c : Z) (s : string) : Prop := In c (lit s).
Definition double_colon (s : str) : Prop := exists s', s = ":"%ch :: ":"%ch :: s'.
Definition clash (t : tok) (txt s : str) : Prop :=
  let c := first_byte s in
  match t with
  | TAssign => one_of c "=~>"
  | TAdd | TGreater => one_of c "=>"
  | TSubtract => one_of c "=>%"
  | TRemainder => one_of c ">"
  | TNot => one_of c "=~"
  | TLess => one_of c "=<|-~%"
  | TLshift => one_of c "|"
  | TDivide => one_of c "*"
  | TColon => one_of c ":"
  | TPipe | TPipeEnd | TRcollect => one_of c ">"
  | TAt => one_of c "@("
  | TInteger => wordchar c \/ c = "."%ch \/ (one_of c "+-" /\ exists d, txt = [d] /\ d <> "0"%ch)
  | TFloat => wordchar c
  | TVariable =>
    if isDecimalDigit (first_byte (skipn 1 txt)) then digit c \/ (one_of c "+-" /\ exists d, txt = ["$"%ch; d]) else wordchar c \/ double_colon s
  | TTypeName => wordchar c \/ double_colon s
  | TIdentifier | TBoolean | TAnd | TApplication | TAttr | TCase | TClass | TConsumes | TDefault | TDefine | TFunction
  | TIf | TIn | TInherits | TElse | TElsif | TNode | TOr | TPlan | TPrivate | TProduces | TSite | TType | TUndef
  | TUnless => wordchar c \/ c = "-"%ch \/ double_colon s
  | _ => False
  end.

(** ** Token streams *)
(** a token as it stands in a source: what is before it, and its text *)
Record tk := mktk { k_gap : str; k_brk : bool; k_tok : tok; k_val : tval; k_radix : Z; k_txt : str }.
Definition render (ks : list tk) : str := flat_map (fun k => k_gap k ++ k_txt k) ks.

(** tokens after which a slash divides *)
Definition ends_operand (t : tok) : Prop :=
  In t [TRp; TRb; TTypeName; TIdentifier; TBoolean; TInteger; TFloat; TString; THeredoc; TConcatenatedString; TRegexp; TVariable].
(** The kinds that depend on where the token stands: [prev] and [prev2] are the
    token before and the one before that (None before the first), [look] is the
    first character of the next token.
    - a parenthesis that is the first thing on a line does not begin arguments
    - a bracket directly after a token is an index, otherwise it begins a list;
      but a bracket after the first token of a block must not have a gap before
      it (the parser would drop the gap)
    - a brace after a question mark begins the options of a selector
    - likewise a bracket after the first token behind the parameters of a template
    - a bar closes lambda parameters if a brace or an arrow follows or if it is
      directly after the opening bar; in a template ([epp]) also if a tag ends after it *)
Definition closes_bar (epp : bool) (look : Z) : Prop := one_of look "{>" \/ epp = true /\ one_of look "%-".
Definition situated (epp : bool) (prev2 prev : option tok) (brk glued : bool) (look : Z) (t : tok) : Prop :=
  match t with
  | TLp => brk = false /\ prev <> None
  | TWslp => brk = true \/ prev = None
  | TLb => glued = true /\ prev <> None
  | TListstart => prev = None \/ (glued = false /\ prev2 <> None /\ prev2 <> Some TLc /\ (prev2 = Some TPipeEnd -> prev = Some TLc))
  | TLc => prev <> Some TQmark
  | TSelc => prev = Some TQmark
  | TPipe => prev <> Some TPipe /\ ~ closes_bar epp look
  | TPipeEnd => prev = Some TPipe \/ closes_bar epp look
  | TDivide => exists p, prev = Some p /\ ends_operand p
  | TRegexp => forall p, prev = Some p -> ~ ends_operand p
  | _ => True
  end.
Definition look (ks : list tk) : Z := match ks with k :: _ => first_byte (k_txt k) | [] => 0 end.
Definition glued (k : tk) : bool := match k_gap k with [] => true | _ => false end.
(** Where tokens stand: in a source of their own, or embedded in a string
    between [${] and [}] (which must not contain a newline outside of its
    strings).  [strings m e txt]: the text [txt] is a string with interpolations
    whose tree is [e]. *)
Record mode := mkmode { embedded : bool; strings : expr -> str -> Prop }.
(** ** Templates
    In an EPP template text and code alternate.  A token of the code is written
    after the tags before it.  [lead t t' x s]: the tags [x] lead from text
    ([t = true]) or from code to text ([t' = true]) or to code, if [s] comes
    after them; the text in between says nothing. *)
Inductive lead : bool -> bool -> str -> str -> Prop :=
| lead_nil t s : lead t t [] s
| lead_open t' dash brk g x s : dash = ["-"%ch] \/ dash = [] /\ ~ one_of (first_byte (g ++ x ++ s)) "%#=-" -> gap brk g -> lead false t' x s ->
    lead true t' ("<"%ch :: "%"%ch :: dash ++ g ++ x) s
| lead_close t' cl src x s : closes cl (encode src ++ x ++ s) -> said src (x ++ s) [] -> tag_or_end (x ++ s) -> lead true t' x s ->
    lead false t' (cl ++ encode src ++ x) s.
(** tokens that depend on where they stand; they are not written after tags *)
Definition fixed (t : tok) (v : tval) : Prop :=
  ~ In t [TEnd; TLp; TWslp; TLb; TListstart; TLc; TSelc; TRegexp; TDivide; TPipe; TPipeEnd; TInteger; TTypeName; TFarrow; TParrow] /\ (forall n, v <> VInt n).
(** [text_token x s v]: the tags and the text [x] are a token with the value [v],
    if [s] comes after them *)
Definition text_token (x s : str) (v : tval) : Prop :=
  exists t pre cl src out, x = pre ++ cl ++ encode src /\ lead t false pre cl /\ closes cl (encode src ++ s) /\ said src s out /\ tag_or_end s
    /\ out <> [] /\ v = VStr (encode out).
(** a token as it is written; the end of an embedded expression is a brace, and
    whatever comes after it.  In a template tokens may be written after tags. *)
Inductive written (o : opts) (m : mode) : tok -> tval -> Z -> str -> Prop :=
| wr_token t v radix txt : token_text o t v radix txt -> (t = TEnd -> embedded m = false) -> written o m t v radix txt
| wr_string e radix txt : strings m e txt -> written o m TConcatenatedString (VExpr e) radix txt
| wr_close radix s : embedded m = true -> written o m TEnd VNil radix ("}"%ch :: s)
| wr_tagged t v radix f pre txt : o_epp o = true -> embedded m = false -> pre <> [] -> lead f false pre txt -> token_text o t v radix txt -> fixed t v ->
    written o m t v radix (pre ++ txt)
| wr_render radix f pre : o_epp o = true -> embedded m = false -> lead f true pre (lit "<%=") -> written o m TRenderExpr VNil radix (pre ++ lit "<%=")
| wr_text v radix b x : o_epp o = true -> embedded m = false -> one_of b "<%-" -> written o m TRenderString v radix (b :: x)
| wr_end radix f pre : o_epp o = true -> embedded m = false -> pre <> [] -> lead f true pre [] -> written o m TEnd VNil radix pre.
(** [stream o m prev2 prev ks]: the tokens [ks], up to the end of the source (or
    of the embedded expression), can be written one after the other as they are *)
Fixpoint stream (o : opts) (m : mode) (prev2 prev : option tok) (ks : list tk) : Prop :=
  match ks with
  | [] => prev = Some TEnd
  | k :: rest =>
    written o m (k_tok k) (k_val k) (k_radix k) (k_txt k)
    /\ (if embedded m then gap false (k_gap k) /\ k_brk k = false
        else gap (k_brk k) (k_gap k) \/ k_txt k = [] /\ end_gap (k_gap k))
    /\ situated (o_epp o) prev2 prev (k_brk k) (glued k) (look rest) (k_tok k)
    /\ ~ clash (k_tok k) (k_txt k) (render rest)
    /\ (k_tok k = TRenderString -> text_token (k_txt k) (render rest) (k_val k))
    /\ (k_tok k = TEnd -> rest = [])
    /\ stream o m prev (Some (k_tok k)) rest
  end.
