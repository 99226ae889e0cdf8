{"id": "C01", "title": "Reader delivers exactly the runes of the source", "statement": "Reading a valid UTF-8 source (U+FFFD counts as invalid: the reader cannot tell it from a decoding error) with StringReader.Next until the end delivers exactly the source's runes, in order, each with its byte offset, and ends at len(source). Peek reports the rune Next will deliver without moving. A source position that does not hold a valid rune makes Next/Peek fail with 'invalid unicode character at offset' that position.", "quantifier": "every byte string and every position", "why_tests_cant": "the set of byte strings is infinite and decoding errors hide in rare byte combinations", "anchors": ["parser/reader.go: Next, Peek, From"]}
{"id": "C02", "title": "PN string quoting is reversible", "statement": "Every string that is valid UTF-8 and is written by pn.DoubleQuote can be read back to exactly the original string, and the written text contains no raw double quote, newline or control character besides its delimiters.", "quantifier": "every valid UTF-8 string", "why_tests_cant": "only a proof covers all combinations of escapes and ordinary runes", "anchors": ["pn/quote.go: DoubleQuote"]}
{"id": "C03", "title": "PN text is unambiguous", "statement": "Formatting a PN tree (without floats) gives a text from which the tree can be read back, so two different trees never have the same text.", "quantifier": "every float-free PN tree whose call names and map keys are space-free tokens", "why_tests_cant": "trees are unbounded; injectivity of a printer is a statement about all pairs of trees", "anchors": ["pn/pn.go: Format, formatElements, formatEntry"]}
{"id": "C04", "title": "PN ToData is lossless", "statement": "PN.ToData yields a data structure of primitives, slices and single-key '^'/'#' maps from which the PN tree can be rebuilt.", "quantifier": "every PN tree", "why_tests_cant": "statement about all pairs of trees", "anchors": ["pn/pn.go: ToData"]}
{"id": "C05", "title": "PN float text denotes the float", "statement": "The text PN.Format writes for a finite float reads back as that float up to the 16 significant digits it prints (same sign, same magnitude).", "quantifier": "every finite float64", "why_tests_cant": "2^64 floats; the failing ones need an exponent ending in zero", "anchors": ["pn/pn.go: literalPN.Format, StripTrailingZeroes"]}
{"id": "C06", "title": "Line numbers and columns are right", "statement": "For a valid UTF-8 source without NUL and U+FFFD, LineForOffset(o) is one plus the number of newlines before byte o and PosOnLine(o) is one plus the number of runes between the start of that line and o.", "quantifier": "every such source and every offset 0..len that is a rune boundary", "why_tests_cant": "all sources and offsets", "anchors": ["parser/expression.go: Locator.LineForOffset, PosOnLine, getLineIndex, offsetOnLine"]}
{"id": "C07", "title": "Single quoted strings denote their text", "statement": "Parsing the single quoted form of a text (backslash and quote escaped) yields one string literal whose value is that text.", "quantifier": "every NUL-free sequence of valid runes", "why_tests_cant": "unbounded texts", "anchors": ["parser/lexer.go: consumeSingleQuotedString, consumeDelimitedString", "parser/parser.go: Parse, atomExpression"]}
{"id": "C08", "title": "Double quoted strings denote their text", "statement": "Parsing the double quoted form of a text (with \\\\, \\\", \\$, \\n, \\r, \\t and \\u{...} escapes as needed) yields one string literal whose value is that text.", "quantifier": "every NUL-free sequence of valid runes and every choice of escaped or plain form per rune", "why_tests_cant": "unbounded texts times escape choices", "anchors": ["parser/lexer.go: consumeDoubleQuotedString, appendUnicode"]}
{"id": "C09", "title": "Decimal integers denote their value", "statement": "A decimal integer literal below 2^63 parses to an integer literal of radix 10 with exactly that value, and a leading minus negates it.", "quantifier": "every n in [0, 2^63)", "why_tests_cant": "2^63 values", "anchors": ["parser/lexer.go: nextToken, skipDecimalDigits", "parser/parser.go: unaryExpression, atomExpression"]}
{"id": "C10", "title": "Hexadecimal and octal integers denote their value", "statement": "0x.../0X... parses to a radix 16 literal and 0... to a radix 8 literal with exactly the value of its digits (below 2^63), in either letter case and with leading zeros.", "quantifier": "every digit string below 2^63", "why_tests_cant": "infinitely many digit strings", "anchors": ["parser/lexer.go: nextToken case '0'"]}
{"id": "C11", "title": "Arithmetic between adjacent integers is arithmetic", "statement": "Writing an integer, '+' or '-', and another integer without blanks parses as the addition or subtraction of both.", "quantifier": "every pair of integers", "why_tests_cant": "the failing inputs need the sign right after the first digit", "anchors": ["parser/lexer.go: skipDecimalDigits"]}
{"id": "C12", "title": "Names and keywords are recognised exactly", "statement": "A qualified lower case name parses to a name expression with exactly that text unless it is a reserved word; 'plan' is reserved only when tasks are enabled; a capitalised qualified name parses to a type reference with that text.", "quantifier": "every well-formed (qualified) name", "why_tests_cant": "unbounded names", "anchors": ["parser/lexer.go: consumeQualifiedName, keywords", "parser/parser.go: atomExpression"]}
{"id": "C13", "title": "Variables denote their name", "statement": "$name, $::name and $a::b parse to a variable with exactly that name, and $0..$n to a variable with that index.", "quantifier": "every well-formed variable name and every index below 2^63", "why_tests_cant": "unbounded names", "anchors": ["parser/lexer.go: nextToken case '$'", "parser/parser.go: atomExpression tokenVariable"]}
{"id": "C14", "title": "Whitespace and comments do not matter", "statement": "Two sources with the same tokens, but other blanks, newlines, # comments and /* */ comments between them, parse to the same tree, except for the documented '[' and '(' rules (a '[' directly after a token is an index, a '(' that begins a line does not begin arguments) and a number directly after a sign.", "quantifier": "every sequence of blanks and comments, every following token", "why_tests_cant": "unbounded comment text", "anchors": ["parser/lexer.go: skipWhite, nextToken"]}
{"id": "C15", "title": "Parse terminates", "statement": "Parse returns (with a result, an error or a Go panic) for every source, every option set, and every state a previous call can have left the parser in.", "quantifier": "every byte string, every option set", "why_tests_cant": "non-termination cannot be tested; backtracking and heredoc jumps move the position backwards", "anchors": ["parser/parser.go: Parse", "parser/lexer.go: nextToken, consumeHeredocString"]}
{"id": "C16", "title": "Parse does not crash", "statement": "Parse reports every problem as a Reported issue or a *parseError; no Go runtime panic escapes from it.", "quantifier": "every byte string, every option set", "why_tests_cant": "needs absence of panics on all inputs", "anchors": ["parser/parser.go: parseTopExpression recover, typeAliasOrDefinition, tokenString", "parser/lexer.go: consumeHeredocString"]}
{"id": "C17", "title": "Parse is a function of its source", "statement": "The result of Parse depends only on the source, the mode and the options: not on what the same parser parsed before.", "quantifier": "every history of earlier Parse calls on the same parser", "why_tests_cant": "all call histories", "anchors": ["parser/parser.go: Parse", "parser/lexer.go: context"]}
{"id": "C18", "title": "Parsed trees are well formed", "statement": "In every tree Parse returns, hash entries are key/value entries, parameters of definitions and lambdas are parameters, selector entries, case options, resource bodies and attribute operations appear where the tree's accessors assume them, and variables hold a name or an index.", "quantifier": "every source for which Parse succeeds", "why_tests_cant": "tree shape invariant over all parses", "anchors": ["parser/parser.go", "parser/expression.go: parametersEntry, NameOrIndex, LiteralHash.Get"]}
{"id": "C19", "title": "ToPN never crashes on validated trees", "statement": "ToPN of a parsed tree does not panic if every parameter name is a legal simple name; in particular when the validator reports no illegal parameter name.", "quantifier": "every parsed tree", "why_tests_cant": "tree induction over all parses", "anchors": ["parser/expression.go: ToPN, parametersEntry", "pn/pn.go: Map"]}
{"id": "C20", "title": "Definitions are all listed", "statement": "Program.Definitions() contains every class, define, function, plan, node, site, type and application definition that occurs in the program's tree.", "quantifier": "every source for which Parse succeeds", "why_tests_cant": "parser invariant over all inputs", "anchors": ["parser/parser.go: addDefinition, Parse"]}
{"id": "C21", "title": "Definitions are listed once", "statement": "Program.Definitions() contains nothing but definitions that occur in the program's tree, each as often as it occurs.", "quantifier": "every source for which Parse succeeds", "why_tests_cant": "needs backtracking to fail", "anchors": ["parser/parser.go: resourceExpression, addDefinition"]}
{"id": "C22", "title": "Error positions are inside the source", "statement": "Every issue reported by Parse has an offset between 0 and len+1, so that asking for its line and column is safe on valid UTF-8 text.", "quantifier": "every source for which Parse fails", "why_tests_cant": "all inputs", "anchors": ["parser/lexer.go: parseIssue, location"]}
{"id": "C23", "title": "Operator precedence and associativity", "statement": "Printing an operator expression with parentheses only where the documented precedence requires them and parsing it gives back that expression: or < and < comparison < equality < shift < additive < multiplicative < match < in < unary, all left associative.", "quantifier": "every operator expression over atoms", "why_tests_cant": "unbounded trees", "anchors": ["parser/parser.go: orExpression .. inExpression, unaryExpression"]}
{"id": "C24", "title": "Class names are qualified by their enclosing classes", "statement": "A class definition is named by joining the names of the enclosing classes/plans and its own name with '::', and after a successful Parse the parser's name stack is what it was before.", "quantifier": "every source", "why_tests_cant": "all nestings", "anchors": ["parser/parser.go: classExpression, qualifiedName, planDefinition, stepDeclaration"]}
{"id": "C25", "title": "Statement calls are calls", "statement": "In a statement list a statement-function name (include, notice, ...) directly followed by an expression or comma list becomes a call with those arguments, every other statement is kept in order, and only value-less calls in statement position are marked as not requiring a value.", "quantifier": "every statement list", "why_tests_cant": "unbounded lists", "anchors": ["parser/parser.go: transformCalls"]}
{"id": "C26", "title": "No stray comma lists", "statement": "A block never contains an argument list separated by commas that is not attached to a statement call: this is reported as an extraneous comma.", "quantifier": "every source for which Parse succeeds", "why_tests_cant": "needs a specific final statement call", "anchors": ["parser/parser.go: transformCalls, syntacticStatement"]}
{"id": "C27", "title": "Options gate syntax", "statement": "Without TasksEnabled no plan definition is ever produced, without WorkflowEnabled no step, and without EppMode no EPP template/text node; without HandleBacktickStrings a backtick is an unexpected token.", "quantifier": "every source, every option set", "why_tests_cant": "all inputs", "anchors": ["parser/parser.go: CreateParser, step, atomExpression", "parser/lexer.go: nextToken, consumeQualifiedName"]}
{"id": "C28", "title": "EPP text renders itself", "statement": "In EPP mode a template without tags parses to one render-string node holding the text verbatim (<%% and %%> giving <% and %>).", "quantifier": "every NUL-free valid text without tags", "why_tests_cant": "unbounded texts", "anchors": ["parser/lexer.go: consumeEPP", "parser/parser.go: parseTopExpression"]}
{"id": "C29", "title": "Heredoc content is verbatim", "statement": "A heredoc without flags, quotes or margin yields the text between its tag line and its end tag verbatim, and lexing goes on right after the tag declaration and later after the end tag line.", "quantifier": "every content without a line that looks like the end tag", "why_tests_cant": "unbounded texts", "anchors": ["parser/lexer.go: consumeHeredocString"]}
{"id": "C30", "title": "Visitors see every node once, parents first", "statement": "AllContents calls the visitor once for each proper descendant, in document order with parents before children, and with the path of ancestors; Contents does so for the direct children only.", "quantifier": "every expression tree", "why_tests_cant": "unbounded trees", "anchors": ["parser/expression.go: DeepVisit, ShallowVisit, AllContents, Contents"]}
{"id": "C31", "title": "Literal evaluation is exact", "statement": "literal.ToLiteral succeeds exactly on trees built from literals, arrays, hashes and heredocs/one-segment strings of literals, and then returns the value those denote; otherwise it returns not-ok.", "quantifier": "every expression tree", "why_tests_cant": "unbounded trees", "anchors": ["literal/literal.go: ToLiteral, toLiteral"]}
{"id": "C32", "title": "Literal evaluation does not crash", "statement": "literal.ToLiteral never panics on a parsed expression.", "quantifier": "every parsed expression", "why_tests_cant": "needs a collection as hash key", "anchors": ["literal/literal.go: toLiteral"]}
{"id": "C33", "title": "Validation is the sum of its node checks", "statement": "The issues Validate reports are exactly those of the root and of each descendant in visiting order, so validation of a subtree is not influenced by its siblings.", "quantifier": "every tree", "why_tests_cant": "unbounded trees", "anchors": ["validator/validator.go: Validate, validate", "validator/checker.go: Validate, Check"]}
{"id": "C34", "title": "Strictness only demotes two issues", "statement": "Changing the strictness of validation changes only the severity (or suppression) of duplicate key and idem-expression issues; the set of all other issues and severities is the same.", "quantifier": "every tree, every pair of strictness levels", "why_tests_cant": "all trees", "anchors": ["validator/checker.go: check_LiteralHash, checkIdem*", "validator/validator.go: Accept, Demote"]}
{"id": "C35", "title": "Strict validation cannot hide hard errors", "statement": "A hard issue is always reported with severity error, at every strictness.", "quantifier": "every tree and strictness", "why_tests_cant": "all trees", "anchors": ["validator/issues.go", "validator/validator.go: Accept"]}
{"id": "C36", "title": "Duplicate hash keys are found", "statement": "A hash with two entries whose keys are the same literal is reported as a duplicate key at the second one, for each such pair, unless strictness is off.", "quantifier": "every hash", "why_tests_cant": "unbounded hashes", "anchors": ["validator/checker.go: check_LiteralHash"]}
{"id": "C37", "title": "Duplicate parameters are found", "statement": "A definition, or lambda, with two parameters of the same name is reported.", "quantifier": "every parameter list", "why_tests_cant": "unbounded lists", "anchors": ["validator/checker.go: checkParameterNameUniqueness"]}
{"id": "C38", "title": "Parameter names accepted by the validator are PN safe", "statement": "A parameter name for which the validator reports no issue is a simple lower case name, which ToPN accepts as a map key.", "quantifier": "every name", "why_tests_cant": "all strings", "anchors": ["validator/checker.go: checkParameterName", "pn/pn.go: keyPattern"]}
{"id": "C39", "title": "Tasks validation rejects catalog constructs and nothing else changes", "statement": "ValidateTasks and ValidateWorkflow report CATALOG_OPERATION_NOT_SUPPORTED at exactly those nodes of the tree that are catalog constructs (application, capability mapping, collector, class, node, relationship, resource/resource defaults/resource override, define, site), whatever their position; ValidatePuppet never reports it. ValidatePuppet and ValidateTasks report WORKFLOW_OPERATION_NOT_SUPPORTED at every step, ValidateWorkflow at none.", "quantifier": "every tree", "why_tests_cant": "all trees", "anchors": ["validator/tasks_checker.go", "validator/workflow_checker.go"]}
{"id": "C40", "title": "ParserValidator.Parse reports issues exactly when there are some", "statement": "ParserValidator.Parse returns (nil, result) with the parse issue iff parsing failed with an issue, (program, nil) iff parsing succeeded and validation found no issue, and otherwise (program, result) with exactly the validation issues; it panics only when Parse failed with a text that is not valid UTF-8, or Parse or validation panicked.", "quantifier": "every source", "why_tests_cant": "all inputs", "anchors": ["validator/validator.go"]}
{"id": "C41", "title": "The command line exit status", "statement": "The parse command exits with status 1 iff parsing failed or validation found an issue of severity error, prints the PN of the program iff the status is 0 and -v is not given, and the status does not depend on -v.", "quantifier": "every source and flag set", "why_tests_cant": "all inputs", "anchors": ["parse/parser.go"]}
{"id": "C42", "title": "Regular expression literals keep their source", "statement": "A regular expression literal has as value the text between its slashes with \\/ turned into /, and every other escape kept.", "quantifier": "every text", "why_tests_cant": "unbounded texts", "anchors": ["parser/lexer.go: consumeRegexp, isRegexpAcceptable"]}
{"id": "C43", "title": "String() of a node is source text", "statement": "Expression.String() of every node of a parsed tree is a slice of the source, and does not panic.", "quantifier": "every node of every parsed tree", "why_tests_cant": "all parses", "anchors": ["parser/expression.go: Positioned.String", "parser/parser.go: identifierExpr, returnParameter"]}
{"id": "C44", "title": "Hash entries in argument and array lists are grouped", "statement": "key => value pairs among arguments and array elements are merged into hashes: adjacent pairs into one hash, order preserved, and no bare pair remains.", "quantifier": "every list of elements", "why_tests_cant": "unbounded lists", "anchors": ["parser/parser.go: joinHashEntries, processHashEntries"]}
{"id": "C45", "title": "Floats are correctly rounded", "statement": "A float literal denotes the float64 nearest to its decimal value (ties to even), and overflow gives infinity.", "quantifier": "every float literal", "why_tests_cant": "unbounded digit strings", "anchors": ["parser/lexer.go: consumeFloat (strconv.ParseFloat)"]}
{"id": "C46", "title": "Validated plans", "statement": "Definitions in plans are validated like those in functions.", "quantifier": "every tree", "why_tests_cant": "all trees", "anchors": ["validator/checker.go: Check"]}
{"id": "C47", "title": "The grammar is parsed", "statement": "Every source of the Puppet grammar (literals, variables, arrays, hashes, calls, indexes, methods, lambdas, operators, selectors, conditionals, case, resources, defaults, overrides, collectors, classes, defines, functions, plans, applications, nodes, sites, types, assignments, relationships, statement calls) is accepted and gives exactly the tree of the grammar; so the grammar is unambiguous, and Program.Definitions() holds exactly the definitions of the tree, inner ones first.", "quantifier": "every token sequence of the grammar and all white space and comments between tokens", "why_tests_cant": "infinitely many sources; nesting is unbounded", "anchors": ["parser/parser.go", "parser/lexer.go"]}
{"id": "C48", "title": "Heredoc margins, dashes, escapes and syntax", "statement": "The text of a heredoc is what its declaration and end tag say: the margin bar takes that many blanks off each line that has them, the dash takes off the last newline (and a carriage return before it), the enabled escapes (\\t \\s \\r \\n \\u \\$ and backslash newline) are replaced and all others are kept, and the syntax is the one declared; lexing goes on right after the declaration and, at the next newline, after the line of the end tag.", "quantifier": "every declaration, content and end tag line", "why_tests_cant": "unbounded texts", "anchors": ["parser/lexer.go: consumeHeredocString, applyEscapes, stripIndent"]}
{"id": "C49", "title": "Interpolated strings are their segments", "statement": "A double quoted string with $name and ${expression} in it is parsed into exactly its segments in order: the texts with their escapes replaced, and the expressions as if they stood by themselves, except that a name (also one that is indexed or on which a method is called) is a variable. Expressions may contain such strings to any depth.", "quantifier": "every sequence of texts, names and expressions, to any depth of nesting", "why_tests_cant": "infinitely many strings; nesting is unbounded", "anchors": ["parser/lexer.go: consumeDoubleQuotedString, consumeDelimitedString, interpolate, convertNamedAccessLHS"]}
{"id": "C50", "title": "Templates render their texts and values in order", "statement": "An EPP template, with or without parameters, is parsed into a lambda with exactly these parameters whose body renders the texts (with <%% and %%> unescaped, comments left out, the blanks before <%- and the blanks and newline after -%> removed) and the values of the expressions in <%= %>, in the order of the source; code in <% %> is the code of the grammar, with the texts between as its statements.", "quantifier": "every sequence of texts, tags and code of the grammar", "why_tests_cant": "infinitely many templates; nesting is unbounded", "anchors": ["parser/lexer.go: consumeEPP", "parser/parser.go: parse, parseTopExpression, asEppLambda"]}
{"id": "C51", "title": "The PN of a tree says what the tree is", "statement": "From the PN form (or from its data form, or from its text when it has no floats) of a parsed tree the tree can be read back: every node with its kind, operator, names, values and parts in order. Only positions are lost, and that an elsif is not an else with an if in it, that statements separated by commas are not an array, the radix of a variable's index and the flags of reserved words and templates. Two programs with the same PN therefore have the same tree in this sense.", "quantifier": "every source that parses, in every state of a parser and with all options, and every node of its tree", "why_tests_cant": "infinitely many trees; a statement about all pairs of trees", "anchors": ["parser/expression.go: ToPN methods, pnIf, definitionPN, parametersEntry, binaryOp", "parser/workflow.go: ToPN", "pn/pn.go: AsCall, AsParameters"]}
{"id": "C52", "title": "Workflow steps are parsed to their tree", "statement": "With the workflow option, action, resource, stateHandler and workflow steps - with their properties, parameters, results, iteration and body, nested to any depth - are accepted and give exactly the tree of the grammar: names are qualified with the workflows around, the variables and calls in the state of a resource become deferred calls, and the definitions are the outermost steps and what is defined inside steps, but not inner steps. Without the option their words are plain names.", "quantifier": "every workflow of the grammar", "why_tests_cant": "infinitely many sources; nesting is unbounded", "anchors": ["parser/parser.go: resource, stepDeclaration, stepProperty, stateAttribute, convertToDeferred, iterator, returnParameter", "parser/workflow.go"]}
{"id": "C53", "title": "Parse reads the whole source", "statement": "When Parse succeeds it has read the source to its end: nothing after the last statement, tag or text is ignored, so the program begins at offset 0 and is at least as long as the source; without heredocs and workflow syntax it is exactly as long, and its text is the source. The source contains no NUL byte, and EPP and workflow syntax are not used together.", "quantifier": "every source that parses, in every state of a parser and with all options", "why_tests_cant": "infinitely many sources and parser states; every construct of the language ends a source somewhere", "anchors": ["parser/parser.go: Parse, parseTopExpression, parse, step, identifier, resourceExpression", "parser/lexer.go: nextToken, skipWhite, consumeEPP"]}
{"id": "C54", "title": "The simple lexer reads the tokens of a source", "statement": "Calling NextToken again and again on the lexer of NewSimpleLexer gives the tokens of the source - kinds and values - one after the other and in order, and after the last of them the end, as often as it is asked for; the end is told only when the source has been read.", "quantifier": "every sequence of tokens of the lexical grammar, with any white space and comments between them", "why_tests_cant": "infinitely many sources", "anchors": ["parser/parser.go: NewSimpleLexer, Lexer, NextToken, CurrentToken", "parser/lexer.go: nextToken, skipWhite"]}
{"id": "C55", "title": "A malformed token is reported for what it is, where it begins", "statement": "Strings, backtick strings and block comments that do not end before the source does, characters that begin no token, a name or variable with a part that is none, a number with a letter or without the digits it needs, and malformed unicode and hexadecimal escapes are reported each with its own code. What is reported is the start of the token; of a number the first character that is wrong, and of an escape its backslash. If such a token is the first of a source, Parse reports it in every state of the parser.", "quantifier": "every text of these kinds, whatever white space and comments before it, whatever comes after it, and every state of the lexer without a pending heredoc", "why_tests_cant": "infinitely many texts and lexer states", "anchors": ["parser/lexer.go: nextToken, skipWhite, unterminatedQuote, consumeQualifiedName, consumeFloat, consumeDelimitedString, appendUnicode, appendHexadec, consumeBacktickedString"]}
{"id": "C56", "title": "Options change only the sources that use them", "statement": "Backticked strings, hexadecimal escapes, tasks and workflows can be switched on or off without any effect on a source that has no backtick, no \\x, no plan, and none of the words action, resource, stateHandler and workflow in it: Parse comes to the same result - tree, positions and definitions, or the same error in the same place - and so do parsing with validation and the command line with -t or -w.", "quantifier": "every source and every pair of option sets that differ only in options of which the source has nothing", "why_tests_cant": "infinitely many sources; every place where the parser looks at an option", "anchors": ["parser/parser.go: CreateParser, Parse, step, parseTopExpression", "parser/lexer.go: nextToken, consumeQualifiedName, consumeDoubleQuotedString", "parse/parser.go: main"]}
{"id": "C57", "title": "What an error says it found stands where the error is", "statement": "When Parse reports that something was expected and something else found - a token that is not the expected one, or neither a comma nor the closing token in a list - then what it says it found stands in the source at the place it reports: the punctuation, operator or keyword itself, or a name, a type name, a variable, a number, a quoted string, a regular expression, or the end of the source. And it says that something else was expected than what it found (a bar and a brace are each the name of two tokens). When Parse reports an unexpected token, and the source is made of bytes and has no type definition (the word type does not occur), that token, or the character that begins no token, stands at the place it reports; a plus sign without an operand is reported behind it. Strings with interpolations and heredocs are not placed; in templates neither are the texts and the end.", "quantifier": "every source (any bytes), all options and both entry points", "why_tests_cant": "infinitely many sources and errors; every place where the parser expects a token", "anchors": ["parser/parser.go: assertToken, expressions, Parse", "parser/lexer.go: nextToken, tokenMap, keywords"]}
{"id": "C58", "title": "A manifest that validates without errors obeys the rules of the language", "statement": "When validation reports no error (and does not crash), then everywhere in the tree: classes, defined types and nodes are at the top (only blocks between them and the program or a class), functions, type aliases and mappings at the very top; class, defined type and function names are segments beginning with a lower case letter, those of aliases with an upper case one; there is no += or -=, and nothing is assigned to an element, a numeric variable or a variable of another scope; the default of a parameter assigns nothing outside lambdas; a case and a selector have at most one default; only the last parameter of a function or lambda captures the rest, none of a class or defined type does, nor is it called name or title; conditions, operands, elements, keys and values are no definitions or collectors; queries compare for equality, joined by and, or and parentheses; a resource body has at most one * =>; defaults, overrides and classes are not virtual; +> is in overrides and collectors only; quoted host names have no other characters than letters, digits, underscores, hyphens and dots; reserved words are not used.", "quantifier": "every tree (parsed or built), all three validators, every strictness, every node at any depth", "why_tests_cant": "infinitely many trees and depths; the rules are conjunctions over all nodes", "anchors": ["validator/checker.go: the check functions", "validator/tasks_checker.go, workflow_checker.go", "validator/validator.go: Validate"]}
