# Formal model of lyraproj/puppet-parser in Rocq (Coq 8.16.1)

## Layout

| file (rocq/theories) | models |
|---|---|
| Base.v | Go strings as byte lists (`str`), UTF-8 decoding/encoding (unicode/utf8), byte classes of lexer.go, strconv.ParseInt/FormatInt |
| Float.v | float64 as sign/mantissa/exponent, strconv.ParseFloat (exact rational + round to nearest even), FormatFloat 'g', fmt %.16g / %.16e |
| Tokens.v | token constants, tokenMap, keyword table (lexer.go:40-303) |
| Ast.v | all node structs of expression.go / workflow.go; children as the visitors see them |
| Pn.v, ToPN.v | pn/pn.go, pn/quote.go, the ToPN methods |
| Ctx.v | parser context, failures, stringReader (reader.go) |
| Locator.v | line index, LineForOffset, PosOnLine, Positioned.String |
| Lexer.v, Parser.v | every function of lexer.go and parser.go |
| Messages.v | templates of the parse issues |
| Literal.v, Visit.v | literal/literal.go, LiteralHash.Get, AllContents / Contents |
| Validator.v | checker.go, tasks_checker.go, workflow_checker.go, validator.go |
| Api.v | Parse with its recover, ParserValidator.Parse, the parse command |
| Conform.v, ConformParser.v, ConformValidator.v | the project's own 450 Go test expectations, replayed on the model by `vm_compute` (tests of the model, not proofs; generated by tools/goconf.py from the `_test.go` files) |
| Spec*.v | the specifications: written without the model's functions, apart from its data types (trees, tokens, PN) |
| Utf8Facts, ReaderProof, PnProof, LocatorProof, VisitProof, LiteralProof, ValidateProof, ToPNProof, ApiProof | C01-C06, C19, C30-C41, C46 |
| Wp, LexFrame, Shape*, ParseProof | invariant over all parser functions: shape of trees, names, definitions, option gates (C18-C21, C24, C26, C27) |
| FuelMono, LexBase, GapProof, LexTokens, LexPunct, LexStrings, LexStream, LexCur, Evals, Ends | evaluation of the lexer on token streams, independent of fuel |
| Grammar*.v | the grammar of SpecGrammar.v is parsed (C07-C14, C23, C25, C42, C44, C47) |
| SpliceProof | strings with interpolations are tokens of the grammar (C49, and C14, C25, C44, C47 with such strings in them) |
| LexTags, GrammarEpp | templates with tags (C50); texts and tags are also tokens of the grammar of C47 |
| PnTreeProof | C51 |
| GrammarSteps, StepsProof | C52 |
| WholeProof | C53 |
| LexSim | C54 |
| SpecLexErr, LexErr | C55 (and the backticks of C27) |
| SpecOptions, OptSim | C56 |
| SpecFound, FoundSim | C57 |
| C58 | SpecRules.v: `passes` (no panic, no error), places, names, assigned targets, queries, things without value | RulesProof.v: a check without errors has parts without errors (`fine`); per kind of node, inversion and induction over lists, trees (queries, assignments) and ancestors (places) |
| SpecRules, RulesProof | C58 |
| FloatProof, FloatText | decimal to binary and back (C05, C45) |
| Pos*.v | progress and error positions (C15, C22) |
| Calm*.v, Rng*.v | no crash, node ranges (C16, C43) |
| EppProof, HeredocProof, ReuseProof | C28, C29/C48, C17 |
| Properties*.v | the property theorems only, each with a concrete case that meets its hypotheses and `Print Assumptions` |

## Modelling decisions

* A method on `*context` is a state function `M A := ctx -> res A`.  A Go panic
  is `Err e c`, where `e` is an issue.Reported with its byte offset, a
  `*parseError` with its offset, or a Go run-time panic by cause (slice bounds,
  index, type assertion, nil dereference, the `panic(string)` in tokenString).
  The state at the time of the panic is kept, because the same parser may be
  used again.
* Mutual recursion between lexer and parser is tied by `run : nat -> forall A,
  fn A -> M A` on explicit fuel; out of fuel is the separate outcome `Fuel`,
  never a normal result.  Termination (C15) shows it is unreachable when the
  fuel is at least an explicit bound.
* Go ints are unbounded `Z` except where the code parses numbers
  (ParseInt/ParseUint clamp as in Go, the errors ignored by the code are
  ignored here too).  Source length is assumed below 2^63.
* Pointer identity: nodes are values.  The code compares pointers in
  `interpolate` (was a new node made? modelled by a boolean) and in
  `Validator.ContainerOf` (modelled on the path).  Mutation of nodes after
  creation (`rvalRequired = false`, updateOffsetAndLength) is modelled by
  rebuilding the node; `definitions` holds nodes, which in Go are shared with the
  tree: no definition node is mutated after `addDefinition` except by
  `updateOffsetAndLength` of its enclosing parenthesis (positions only).
* `unicode.IsLetter` outside ASCII is a parameter of the options record, so all
  theorems hold for every such function.

## Not modelled

I/O and flag parsing of the command, JSON encoding, issue text rendering in the
issue library (templates themselves are in Messages.v), `Locator.File`,
DumpJSON of tests, the `label` methods, goroutines (none exist), memory
exhaustion and stack overflow of the Go run time.

## Trusted base

Coq's kernel (vm_compute included), and the reading of the Go source recorded in
the comment above each definition.  No axioms, of ours or of
the standard library: `Print Assumptions` stands below every property theorem
and answers "Closed under the global context" for all of them.
The Go code could not be run here; conformance is checked against the
expectations in the project's own test files instead (450 of them, Conform*.v).
strconv.ParseFloat/ParseInt/FormatFloat and unicode/utf8 are Go library code:
the model states their documented behaviour (and, for ParseFloat, its cap on
written exponents), and is trusted there.

## Properties: what is modelled, how it is proved

Where a property is false of the code the table says so; a theorem `Cnn_refuted*`
gives the witness and `Cnn_*_partial` the strongest form that was proved.

| id | statement on the model | method |
|---|---|---|
| C01 | `next` repeated over `encode rs` yields `rs`; failure at exactly the positions that hold no rune | induction over runes, UTF-8 decode/encode inverse |
| C02 | an independent un-quoting function inverts `doubleQuote` | induction over runes |
| C03 | injectivity of `format` on float-free trees | an independent reader inverts the printer |
| C04 | `toData` inverted by an independent function | structural induction |
| C05 | refuted: 10^20 prints as `1e+2`.  Partial: sign, digits and point right; only zeros at the end of the exponent can be missing | witness; rational arithmetic on digits |
| C06 | lineForOffset/posOnLine = counting newlines/runes | induction |
| C07, C08, C42 | parse of quoted text = one string/regexp literal | evaluation of the model on an input family, induction over the text |
| C09, C10 | parse of number text = number literal | same; digits by induction |
| C45 | the float is the nearest float64, ties to even, for all literals but those above strconv's exponent cap (refuted there) | rational inequalities |
| C11 | refuted (`1+2`).  Partial: all first operands but those of one digit other than 0 | witness, instance of C47 |
| C12, C13 | names, keywords, variables | instances of C47 |
| C14 | same tokens, other gaps: same tree up to positions | corollary of C47 |
| C15 | with fuel 300(len+3)^2 or more `Fuel` is impossible | measure (position, call level) over all functions |
| C16 | refuted (three sources crash).  Partial: no crash outside workflow mode for sources without `@(` and the word `type`, and which crash each of these adds | witnesses, invariant over all functions |
| C17 | refuted (stale names, token, line start).  Partial: exactly these three matter, and one-line histories leave no trace | witnesses, relational invariant over all functions |
| C18 | shape of every returned tree | invariant over all functions |
| C19, C38 | ToPN defined if parameter names are simple | structural induction |
| C20 | definitions of the tree are listed | invariant |
| C21 | refuted (backtracking lists a class twice); exact for the grammar of C47 | witness, invariant |
| C22 | offsets of issues are in [0,len+1] and have a line and a column | invariant |
| C23 | print with minimal parentheses, then parse: the same expression | induction over the expression, C47 |
| C24 | refuted in strings and after failures; names joined otherwise | witness, invariant |
| C25, C44 | transformCalls / joinHashEntries against independent specifications | induction |
| C26 | refuted (early return of transformCalls).  Partial: a comma list only in a block that has a statement call | witness, invariant |
| C27 | option gates over trees; a backtick without the option is an unexpected token | invariant; LexErr.v |
| C28 | EPP templates without tags render their text | induction over the text |
| C29, C48 | heredocs: text, margin, dash, escapes, syntax, where lexing goes on | induction over lines |
| C30 | visitor order against an independent preorder | structural induction |
| C31, C32 | ToLiteral against an inductive denotation; crash refuted, its only cause proved | structural induction, witness |
| C33-C37, C39-C41, C46 | validator, ParserValidator, command | structural induction, case analysis; C37, C46 refuted for lambdas, plans, applications |
| C43 | refuted (workflow, heredoc at end).  Partial: all other sources | witness, range invariant over all functions |
| C47 | an inductive grammar with its trees (SpecGrammar.v): every derivation is parsed to its tree; unambiguity | induction over derivations |
| C49 | strings as sequences of segments (SpecSplice.v), nested to any depth; every one is lexed to its tree, so it may stand wherever the grammar has a string | induction over the nesting, the segments, and C47 inside |
| C50 | EPP templates (SpecEpp.v): text, tags that may stand before any token whose kind does not depend on its predecessor (`lead` in SpecLex.v), texts as statements (`TRenderString` tokens), `<%=` before an expression, parameters | the lexer between tags (LexTags.v, LexCur.v), then C47's grammar, whose token streams may now contain tags (GrammarEpp.v) |
| C51 | a reader of PN forms (SpecPnTree.v), written from the names of the forms and their fields; `known` is the tree without what PN does not show | C18's grammar (now with the texts of operators) for every node, then induction over the tree: reading ToPN's result gives the tree |
| C52 | the steps are rules of SpecGrammar.v (its parameter `workflow` turns them on); workflows written out (SpecSteps.v) | GrammarSteps.v: the rules of steps, inside C47's induction; StepsProof.v: the written workflows are derivable |
| C53 | an invariant of all parser functions: at the end token the lexer is at the end of the text | WholeProof.v: classes of functions (set the token, keep it, keep the invariant), composed over every function; the last token of Parse is the end token |
| C54 | the lexical grammar of SpecLex.v; `reads`: what successive calls of NextToken give | LexSim.v: on one line the lexer of NewSimpleLexer makes the same steps as that of a parser (a simulation over all lexer functions), whose tokens are those of the grammar (LexCur.v); the end from WholeProof.v |
| C55 | SpecLexErr.v: the ways in which text is not a token, with what is reported | LexErr.v: the lexer on each of them, by induction on the text; the strings by reading on whatever comes of it (`yields`) |
| C56 | SpecOptions.v: bytes that are somewhere in the source, and what must not be | OptSim.v: every function of lexer and parser commutes with changing the options of the state, with the invariant that no name or word that is not quoted is a step word (`inert`) |
| C57 | SpecFound.v: what an error message calls something, and the bytes it begins with | FoundSim.v: Hoare triples for every function of lexer and parser with the invariant that the name of the current token stands where the token starts (`tri`, `SpF`); strings carry the segments they have read, as an interpolation moves the start of the token |
