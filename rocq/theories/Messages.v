(** * Messages: the text of the issues Parse reports (parser/issues.go:59-110)

    The templates are those of issues.go.  How a template and a location are
    put together is the work of the issue module, which is not part of this
    code base: the form " (line: L, column: C)" is what its callers' tests
    show (parser_test.go).  Used by the conformance checks only. *)
From Verif Require Import Base Float Tokens Ast Ctx Locator.

Definition template (c : icode) : string :=
  match c with
  | LEX_DOUBLE_COLON_NOT_FOLLOWED_BY_NAME => ":: not followed by name segment"
  | LEX_DIGIT_EXPECTED => "digit expected"
  | LEX_HEREDOC_DECL_UNTERMINATED => "unterminated @("
  | LEX_HEREDOC_EMPTY_TAG => "empty heredoc tag"
  | LEX_HEREDOC_ILLEGAL_ESCAPE => "illegal heredoc escape '%{flag}'"
  | LEX_HEREDOC_MULTIPLE_ESCAPE => "more than one declaration of escape flags in heredoc"
  | LEX_HEREDOC_MULTIPLE_SYNTAX => "more than one syntax declaration in heredoc"
  | LEX_HEREDOC_MULTIPLE_TAG => "more than one tag declaration in heredoc"
  | LEX_HEREDOC_UNTERMINATED => "unterminated heredoc"
  | LEX_HEXDIGIT_EXPECTED => "hexadecimal digit expected"
  | LEX_INVALID_NAME => "invalid name"
  | LEX_INVALID_OPERATOR => "invalid operator '%{op}'"
  | LEX_INVALID_TYPE_NAME => "invalid type name"
  | LEX_INVALID_VARIABLE_NAME => "invalid variable name"
  | LEX_MALFORMED_HEX_ESCAPE => "malformed hexadecimal escape sequence"
  | LEX_MALFORMED_INTERPOLATION => "malformed interpolation expression"
  | LEX_MALFORMED_UNICODE_ESCAPE => "malformed unicode escape sequence"
  | LEX_OCTALDIGIT_EXPECTED => "octal digit expected"
  | LEX_UNBALANCED_EPP_COMMENT => "unbalanced epp comment"
  | LEX_UNEXPECTED_TOKEN => "unexpected token '%{token}'"
  | LEX_UNTERMINATED_COMMENT => "unterminated /* */ comment"
  | LEX_UNTERMINATED_STRING => "unterminated %{string_type} quoted string"
  | PARSE_CLASS_NOT_VALID_HERE => "'class' keyword not allowed at this location"
  | PARSE_ELSIF_IN_UNLESS => "elsif not supported in unless expression"
  | PARSE_EXPECTED_STEP_NAME => "expected %{step} name"
  | PARSE_EXPECTED_ITERATOR_STYLE => "expected one of 'each', 'range', or 'times'. Got '%{style}"
  | PARSE_EXPECTED_STEP_STYLE => "expected one of 'action', 'resource', or 'workflow'"
  | PARSE_EXPECTED_ATTRIBUTE_NAME => "expected attribute name"
  | PARSE_EXPECTED_CLASS_NAME => "expected name of class"
  | PARSE_EXPECTED_FARROW_AFTER_KEY => "expected '=>' to follow hash key"
  | PARSE_EXPECTED_HOSTNAME => "hostname expected"
  | PARSE_EXPECTED_NAME_OR_NUMBER_AFTER_DOT => "expected name or number to follow '.'"
  | PARSE_EXPECTED_NAME_AFTER_FUNCTION => "expected a name to follow keyword 'function'"
  | PARSE_EXPECTED_NAME_AFTER_PLAN => "expected a name to follow keyword 'plan'"
  | PARSE_EXPECTED_ONE_OF_TOKENS => "expected one of %{expected}, got '%{actual}'"
  | PARSE_EXPECTED_TITLE => "resource title expected"
  | PARSE_EXPECTED_TOKEN => "expected token '%{expected}', got '%{actual}'"
  | PARSE_EXPECTED_TYPE_NAME => "expected type name"
  | PARSE_EXPECTED_TYPE_NAME_AFTER_TYPE => "expected type name to follow 'type'"
  | PARSE_EXPECTED_VARIABLE => "expected variable declaration"
  | PARSE_EXTRANEOUS_COMMA => "Extraneous comma between statements"
  | PARSE_ILLEGAL_EPP_PARAMETERS => "Ambiguous EPP parameter expression. Probably missing '<%%-' before parameters to remove leading whitespace"
  | PARSE_INVALID_ATTRIBUTE => "invalid attribute operation"
  | PARSE_INVALID_RESOURCE => "invalid resource expression"
  | PARSE_INHERITS_MUST_BE_TYPE_NAME => "expected type name to follow 'inherits'"
  | PARSE_RESOURCE_WITHOUT_TITLE => "This expression is invalid. Did you try declaring a '%{name}' resource without a title?"
  | PARSE_QUOTED_NOT_VALID_NAME => "a quoted string is not valid as a name at this location"
  end%string.

(** The text of a template: %% is a percent sign, %{k} the argument k (issue
    module, not modelled further: our reading of its documentation) *)
Fixpoint take_key (s : str) : str * str :=
  match s with
  | [] => ([], [])
  | c :: s' => if c =? "}"%ch then ([], s') else let (a, b) := take_key s' in (c :: a, b)
  end.
Fixpoint arg_of (k : str) (a : args) : str :=
  match a with
  | [] => []
  | (k', v) :: a' => if str_eqb k (lit k') then v else arg_of k a'
  end.
Fixpoint expand (fuel : nat) (s : str) (a : args) : str :=
  match fuel, s with
  | S n, 37 :: 37 :: s' => 37 :: expand n s' a
  | S n, 37 :: 123 :: s' => let (k, r) := take_key s' in arg_of k a ++ expand n r a
  | S n, c :: s' => c :: expand n s' a
  | _, _ => []
  end.
Definition message (c : icode) (a : args) : str :=
  let t := lit (template c) in expand (S (List.length t)) t a.

Definition at_line (line col : Z) : str :=
  lit " (line: " ++ format_int line ++ lit ", column: " ++ format_int col ++ lit ")".
(** err.Error() for a parse with an empty file name *)
Definition error_text (text : str) (e : err) : option str :=
  match e with
  | Issue c a off =>
    match lineForOffset text off, posOnLine text off with
    | inl l, inl p => Some (message c a ++ at_line l p)
    | _, _ => None
    end
  | IssueAt c l p => Some (message c [] ++ at_line l p)
  | ParseErr off => Some (lit "invalid unicode character at offset " ++ format_int off)
  | GoPanic _ => None
  end.
