s('C01','proved','reads_all over every scalar list without U+FFFD (which the reader reports as invalid), peek, and failure at exactly the invalid positions')
s('C02','proved','')
s('C03','proved','float-free trees with token names')
s('C04','proved','')
s('C06','proved','valid UTF-8, no NUL, no U+FFFD')
s('C30','proved','')
s('C31','proved','')
s('C32','partial','the full property is false: {[1]=>2} panics (C32_refuted). Proved: a hash with an unhashable key is the only cause')
s('C33','proved','')
s('C34','proved','')
s('C35','proved','')
s('C36','proved','found: for every literal key; real: for hashes whose keys are not arrays or hashes')
s('C37','partial','false for lambdas, plans and applications (refutations); proved for functions, classes, defined types and EPP templates')
s('C38','proved','')
s('C39','proved','')
s('C40','proved','')
s('C41','proved','')
s('C46','partial','false for the plan itself (C46_refuted); proved for all nodes inside')
s('C18','proved','every parser state, both modes')
s('C19','proved','both for validated trees and for trees with legal parameter names')
s('C20','proved','up to the position of the definition node itself')
s('C21','partial','the full property is false (C21_refuted, resource backtracking lists a class twice). Proved: nothing but definitions and steps, all well formed, is listed')
s('C24','partial','false inside string interpolations and after a failed Parse (refutations); proved outside strings for a parser with no pending names')
s('C27','proved','')
s('C07','proved','every text of runes other than NUL and U+FFFD, any comments around, both modes; and every other single quoted form')
s('C08','proved','every text, with and without hex escapes; strings without interpolations')
s('C09','proved','')
s('C10','proved','')
s('C12','proved','no reserved word is a name, except the word type when it stands alone')
s('C13','proved','')
s('C14','proved','sources of the grammar of SpecGrammar.v, without EPP and workflow steps')
s('C23','proved','operands are variables, numbers and parenthesised expressions; any operand of the grammar: C47')
s('C25','proved','')
s('C42','proved','')
s('C44','proved','')
s('C47','proved','the grammar of SpecGrammar.v; not in it: interpolated strings, heredocs, capability mappings, EPP, workflow steps')
s('C15','proved','every source, option set and parser state; the depth of calls is at most 300(len+3)^2. Goroutine stack limits and memory are not modelled')
s('C22','proved','offsets of issues and parse errors are in [0,len+1] (the bound is reached); the line and column of the one issue located that way are in range; line and column of such an offset exist on valid text')
s('C26','partial','false as stated (C26_refuted: a comma list survives when a later statement of the block is a call). Proved: a comma list can only be an element of a block that contains a statement call')
s('C11','partial','false for a first operand of one digit other than 0 (C11_refuted). Proved for all others, and with any blank or comment before the sign')
s('C45','partial','false for written exponents of 100000 or more with ten thousand digits before them (C45_refuted; strconv). Proved for all other literals: nearest float64, ties to even, overflow to infinity; strconv.ParseFloat is modelled')
s('C05','partial','false for decimal exponents that are multiples of ten (C05_refuted: 10^20 prints as 1e+2). Proved: for every finite float sign, digits and point are right, only zeros at the end of the exponent may be missing, and nothing is missing for the other exponents')
s('C16','partial','false as stated (C16_refuted: three sources crash). Proved: no crash for any parser state outside workflow mode, for sources with neither the characters @( nor the word type; and which kind of crash each of these three can add')
s('C43','partial','false in workflow mode and for a heredoc at the end of the source (C43_refuted). Proved for all other sources: every node of the tree and of the definitions is a piece of the source')
s('C28','proved','templates without tags, including comments and the <%% and %%> escapes; every parser state, both modes, NUL-free valid text without U+FFFD')
s('C29','partial','false for contents with a line that begins with | or - (C29_refuted: such a line sets the margin). Proved for all other contents, for every lexer state in which no other heredoc is pending: text, syntax, where the lexer goes on and where it goes on after the line')
s('C48','proved','every declaration (quoted or not, with or without syntax and escapes), every margin and dash, escapes t r n s u $ L; without interpolation; the rest of the tag line must not contain a slash, and # only as a comment; content lines that begin with | or - are excluded (see C29)')
s('C17','partial','false after a failure and after a program of several lines (refutations). Proved: only the pending names, the last token and the start of the last line have an influence on later calls, and a parser that has parsed only one-line sources with success is like new')
s('C47','proved','the grammar of SpecGrammar.v, with interpolated strings (SpecSplice.v); in workflow mode also the steps of C52; not in it: heredocs, capability mappings')
s('C49','proved','any segments; an expression in a string must not begin with a brace, bar or slash (what these are depends on the token before the string), contains no definition and no newline outside its own strings, and is not empty')
s('C50','proved','the grammar of SpecEpp.v/SpecGrammar.v with tags and texts at every token; the text before the first tag must not begin (after blanks) with a newline, # or / (the parser reads it as code when it looks for the start of a line), tokens whose kind depends on the token before them are not written directly after a tag, and heredocs are excluded')
s('C51','proved','a reader of PN forms (SpecPnTree.v) recovers every node of every parsed tree up to known, which drops positions and what PN does not show (an example shows that elsif is not shown)')
s('C52','proved','all steps of SpecGrammar.v (C52_steps_are_parsed) and written out for all nestings of actions, resources and workflows (C52_workflows); steps without a body are not in the grammar (the parser takes what follows them for an iteration), nor is a step whose name is the word in')
s('C53','proved','all sources without a NUL byte, unless both EPP and workflow syntax are on (both exclusions are refuted by examples); that the length is exact: also without heredocs and workflow syntax, which C43 excludes')
s('C54','partial','false for a source with a newline (C54_refuted_newline: the first newline starts the lexer again at the beginning) and for \\$ in double quotes (C54_refuted_dollar: the backslash stays). Proved: every one-line source of the lexical grammar that does not have both double quotes and dollar signs; for every source the end is told at the end only; the tokens are determined')
s('C55','proved','the kinds of malformed tokens of SpecLexErr.v; malformed interpolations and heredoc declarations are not among them. The first token of a source is reported by Parse; a later one is reported by NextToken when the parser asks for it (what the parser has complained about before is not covered)')
s('C56','proved','bytes that stand anywhere in the source count (also in strings and comments, and in longer words); an example shows that each of the conditions is needed. EPP is not among the options: it changes every source')
s('C57','proved','for the two errors that say what they found (PARSE_EXPECTED_TOKEN, PARSE_EXPECTED_ONE_OF_TOKENS); a string with an interpolation is reported behind its last interpolation (C57_exceptions), so such strings and heredocs are not placed. LEX_UNEXPECTED_TOKEN is covered for sources without the word type (the error of a type definition stands behind the token), except that nothing is claimed of a + (reported behind it); C57_unexpected shows both')
s('C58','proved','that a node is not idempotent where an effect is needed, reserved type names, type references, function names in calls and type mappings are not stated; plans and applications are not checked by the code')
