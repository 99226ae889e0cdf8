import json
P=[]
def p(title,statement,quantifier,why,anchors):
    P.append(dict(id="C%02d"%(len(P)+1),title=title,statement=statement,quantifier=quantifier,why_tests_cant=why,anchors=anchors))
p("Reader delivers exactly the runes of the source",
  "Reading a valid UTF-8 source (U+FFFD counts as invalid: the reader cannot tell it from a decoding error) with StringReader.Next until the end delivers exactly the source's runes, in order, each with its byte offset, and ends at len(source). Peek reports the rune Next will deliver without moving. A source position that does not hold a valid rune makes Next/Peek fail with 'invalid unicode character at offset' that position.",
  "every byte string and every position","the set of byte strings is infinite and decoding errors hide in rare byte combinations",["parser/reader.go: Next, Peek, From"])
p("PN string quoting is reversible",
  "Every string that is valid UTF-8 and is written by pn.DoubleQuote can be read back to exactly the original string, and the written text contains no raw double quote, newline or control character besides its delimiters.",
  "every valid UTF-8 string","only a proof covers all combinations of escapes and ordinary runes",["pn/quote.go: DoubleQuote"])
p("PN text is unambiguous",
  "Formatting a PN tree (without floats) gives a text from which the tree can be read back, so two different trees never have the same text.",
  "every float-free PN tree whose call names and map keys are space-free tokens","trees are unbounded; injectivity of a printer is a statement about all pairs of trees",["pn/pn.go: Format, formatElements, formatEntry"])
p("PN ToData is lossless",
  "PN.ToData yields a data structure of primitives, slices and single-key '^'/'#' maps from which the PN tree can be rebuilt.",
  "every PN tree","statement about all pairs of trees",["pn/pn.go: ToData"])
p("PN float text denotes the float",
  "The text PN.Format writes for a finite float reads back as that float up to the 16 significant digits it prints (same sign, same magnitude).",
  "every finite float64","2^64 floats; the failing ones need an exponent ending in zero",["pn/pn.go: literalPN.Format, StripTrailingZeroes"])
p("Line numbers and columns are right",
  "For a valid UTF-8 source without NUL and U+FFFD, LineForOffset(o) is one plus the number of newlines before byte o and PosOnLine(o) is one plus the number of runes between the start of that line and o.",
  "every such source and every offset 0..len that is a rune boundary","all sources and offsets",["parser/expression.go: Locator.LineForOffset, PosOnLine, getLineIndex, offsetOnLine"])
p("Single quoted strings denote their text",
  "Parsing the single quoted form of a text (backslash and quote escaped) yields one string literal whose value is that text.",
  "every NUL-free sequence of valid runes","unbounded texts",["parser/lexer.go: consumeSingleQuotedString, consumeDelimitedString","parser/parser.go: Parse, atomExpression"])
p("Double quoted strings denote their text",
  "Parsing the double quoted form of a text (with \\\\, \\\", \\$, \\n, \\r, \\t and \\u{...} escapes as needed) yields one string literal whose value is that text.",
  "every NUL-free sequence of valid runes and every choice of escaped or plain form per rune","unbounded texts times escape choices",["parser/lexer.go: consumeDoubleQuotedString, appendUnicode"])
p("Decimal integers denote their value",
  "A decimal integer literal below 2^63 parses to an integer literal of radix 10 with exactly that value, and a leading minus negates it.",
  "every n in [0, 2^63)","2^63 values",["parser/lexer.go: nextToken, skipDecimalDigits","parser/parser.go: unaryExpression, atomExpression"])
p("Hexadecimal and octal integers denote their value",
  "0x.../0X... parses to a radix 16 literal and 0... to a radix 8 literal with exactly the value of its digits (below 2^63), in either letter case and with leading zeros.",
  "every digit string below 2^63","infinitely many digit strings",["parser/lexer.go: nextToken case '0'"])
p("Arithmetic between adjacent integers is arithmetic",
  "Writing an integer, '+' or '-', and another integer without blanks parses as the addition or subtraction of both.",
  "every pair of integers","the failing inputs need the sign right after the first digit",["parser/lexer.go: skipDecimalDigits"])
p("Names and keywords are recognised exactly",
  "A qualified lower case name parses to a name expression with exactly that text unless it is a reserved word; 'plan' is reserved only when tasks are enabled; a capitalised qualified name parses to a type reference with that text.",
  "every well-formed (qualified) name","unbounded names",["parser/lexer.go: consumeQualifiedName, keywords","parser/parser.go: atomExpression"])
p("Variables denote their name",
  "$name, $::name and $a::b parse to a variable with exactly that name, and $0..$n to a variable with that index.",
  "every well-formed variable name and every index below 2^63","unbounded names",["parser/lexer.go: nextToken case '$'","parser/parser.go: atomExpression tokenVariable"])
p("Whitespace and comments do not matter",
  "Two sources with the same tokens, but other blanks, newlines, # comments and /* */ comments between them, parse to the same tree, except for the documented '[' and '(' rules (a '[' directly after a token is an index, a '(' that begins a line does not begin arguments) and a number directly after a sign.",
  "every sequence of blanks and comments, every following token","unbounded comment text",["parser/lexer.go: skipWhite, nextToken"])
p("Parse terminates",
  "Parse returns (with a result, an error or a Go panic) for every source, every option set, and every state a previous call can have left the parser in.",
  "every byte string, every option set","non-termination cannot be tested; backtracking and heredoc jumps move the position backwards",["parser/parser.go: Parse","parser/lexer.go: nextToken, consumeHeredocString"])
p("Parse does not crash",
  "Parse reports every problem as a Reported issue or a *parseError; no Go runtime panic escapes from it.",
  "every byte string, every option set","needs absence of panics on all inputs",["parser/parser.go: parseTopExpression recover, typeAliasOrDefinition, tokenString","parser/lexer.go: consumeHeredocString"])
p("Parse is a function of its source",
  "The result of Parse depends only on the source, the mode and the options: not on what the same parser parsed before.",
  "every history of earlier Parse calls on the same parser","all call histories",["parser/parser.go: Parse","parser/lexer.go: context"])
p("Parsed trees are well formed",
  "In every tree Parse returns, hash entries are key/value entries, parameters of definitions and lambdas are parameters, selector entries, case options, resource bodies and attribute operations appear where the tree's accessors assume them, and variables hold a name or an index.",
  "every source for which Parse succeeds","tree shape invariant over all parses",["parser/parser.go","parser/expression.go: parametersEntry, NameOrIndex, LiteralHash.Get"])
p("ToPN never crashes on validated trees",
  "ToPN of a parsed tree does not panic if every parameter name is a legal simple name; in particular when the validator reports no illegal parameter name.",
  "every parsed tree","tree induction over all parses",["parser/expression.go: ToPN, parametersEntry","pn/pn.go: Map"])
p("Definitions are all listed",
  "Program.Definitions() contains every class, define, function, plan, node, site, type and application definition that occurs in the program's tree.",
  "every source for which Parse succeeds","parser invariant over all inputs",["parser/parser.go: addDefinition, Parse"])
p("Definitions are listed once",
  "Program.Definitions() contains nothing but definitions that occur in the program's tree, each as often as it occurs.",
  "every source for which Parse succeeds","needs backtracking to fail",["parser/parser.go: resourceExpression, addDefinition"])
p("Error positions are inside the source",
  "Every issue reported by Parse has an offset between 0 and len+1, so that asking for its line and column is safe on valid UTF-8 text.",
  "every source for which Parse fails","all inputs",["parser/lexer.go: parseIssue, location"])
p("Operator precedence and associativity",
  "Printing an operator expression with parentheses only where the documented precedence requires them and parsing it gives back that expression: or < and < comparison < equality < shift < additive < multiplicative < match < in < unary, all left associative.",
  "every operator expression over atoms","unbounded trees",["parser/parser.go: orExpression .. inExpression, unaryExpression"])
p("Class names are qualified by their enclosing classes",
  "A class definition is named by joining the names of the enclosing classes/plans and its own name with '::', and after a successful Parse the parser's name stack is what it was before.",
  "every source","all nestings",["parser/parser.go: classExpression, qualifiedName, planDefinition, stepDeclaration"])
p("Statement calls are calls",
  "In a statement list a statement-function name (include, notice, ...) directly followed by an expression or comma list becomes a call with those arguments, every other statement is kept in order, and only value-less calls in statement position are marked as not requiring a value.",
  "every statement list","unbounded lists",["parser/parser.go: transformCalls"])
p("No stray comma lists",
  "A block never contains an argument list separated by commas that is not attached to a statement call: this is reported as an extraneous comma.",
  "every source for which Parse succeeds","needs a specific final statement call",["parser/parser.go: transformCalls, syntacticStatement"])
p("Options gate syntax",
  "Without TasksEnabled no plan definition is ever produced, without WorkflowEnabled no step, and without EppMode no EPP template/text node; without HandleBacktickStrings a backtick is an unexpected token.",
  "every source, every option set","all inputs",["parser/parser.go: CreateParser, step, atomExpression","parser/lexer.go: nextToken, consumeQualifiedName"])
p("EPP text renders itself",
  "In EPP mode a template without tags parses to one render-string node holding the text verbatim (<%% and %%> giving <% and %>).",
  "every NUL-free valid text without tags","unbounded texts",["parser/lexer.go: consumeEPP","parser/parser.go: parseTopExpression"])
p("Heredoc content is verbatim",
  "A heredoc without flags, quotes or margin yields the text between its tag line and its end tag verbatim, and lexing goes on right after the tag declaration and later after the end tag line.",
  "every content without a line that looks like the end tag","unbounded texts",["parser/lexer.go: consumeHeredocString"])
p("Visitors see every node once, parents first",
  "AllContents calls the visitor once for each proper descendant, in document order with parents before children, and with the path of ancestors; Contents does so for the direct children only.",
  "every expression tree","unbounded trees",["parser/expression.go: DeepVisit, ShallowVisit, AllContents, Contents"])
p("Literal evaluation is exact",
  "literal.ToLiteral succeeds exactly on trees built from literals, arrays, hashes and heredocs/one-segment strings of literals, and then returns the value those denote; otherwise it returns not-ok.",
  "every expression tree","unbounded trees",["literal/literal.go: ToLiteral, toLiteral"])
p("Literal evaluation does not crash",
  "literal.ToLiteral never panics on a parsed expression.",
  "every parsed expression","needs a collection as hash key",["literal/literal.go: toLiteral"])
p("Validation is the sum of its node checks",
  "The issues Validate reports are exactly those of the root and of each descendant in visiting order, so validation of a subtree is not influenced by its siblings.",
  "every tree","unbounded trees",["validator/validator.go: Validate, validate","validator/checker.go: Validate, Check"])
p("Strictness only demotes two issues",
  "Changing the strictness of validation changes only the severity (or suppression) of duplicate key and idem-expression issues; the set of all other issues and severities is the same.",
  "every tree, every pair of strictness levels","all trees",["validator/checker.go: check_LiteralHash, checkIdem*","validator/validator.go: Accept, Demote"])
p("Strict validation cannot hide hard errors",
  "A hard issue is always reported with severity error, at every strictness.",
  "every tree and strictness","all trees",["validator/issues.go","validator/validator.go: Accept"])
p("Duplicate hash keys are found",
  "A hash with two entries whose keys are the same literal is reported as a duplicate key at the second one, for each such pair, unless strictness is off.",
  "every hash","unbounded hashes",["validator/checker.go: check_LiteralHash"])
p("Duplicate parameters are found",
  "A definition, or lambda, with two parameters of the same name is reported.",
  "every parameter list","unbounded lists",["validator/checker.go: checkParameterNameUniqueness"])
p("Parameter names accepted by the validator are PN safe",
  "A parameter name for which the validator reports no issue is a simple lower case name, which ToPN accepts as a map key.",
  "every name","all strings",["validator/checker.go: checkParameterName","pn/pn.go: keyPattern"])
p("Tasks validation rejects catalog constructs and nothing else changes",
  "ValidateTasks and ValidateWorkflow report CATALOG_OPERATION_NOT_SUPPORTED at exactly those nodes of the tree that are catalog constructs (application, capability mapping, collector, class, node, relationship, resource/resource defaults/resource override, define, site), whatever their position; ValidatePuppet never reports it. ValidatePuppet and ValidateTasks report WORKFLOW_OPERATION_NOT_SUPPORTED at every step, ValidateWorkflow at none.",
  "every tree","all trees",["validator/tasks_checker.go","validator/workflow_checker.go"])
p("ParserValidator.Parse reports issues exactly when there are some",
  "ParserValidator.Parse returns (nil, result) with the parse issue iff parsing failed with an issue, (program, nil) iff parsing succeeded and validation found no issue, and otherwise (program, result) with exactly the validation issues; it panics only when Parse failed with a text that is not valid UTF-8, or Parse or validation panicked.",
  "every source","all inputs",["validator/validator.go"])
p("The command line exit status",
  "The parse command exits with status 1 iff parsing failed or validation found an issue of severity error, prints the PN of the program iff the status is 0 and -v is not given, and the status does not depend on -v.",
  "every source and flag set","all inputs",["parse/parser.go"])
p("Regular expression literals keep their source",
  "A regular expression literal has as value the text between its slashes with \\/ turned into /, and every other escape kept.",
  "every text","unbounded texts",["parser/lexer.go: consumeRegexp, isRegexpAcceptable"])
p("String() of a node is source text",
  "Expression.String() of every node of a parsed tree is a slice of the source, and does not panic.",
  "every node of every parsed tree","all parses",["parser/expression.go: Positioned.String","parser/parser.go: identifierExpr, returnParameter"])
p("Hash entries in argument and array lists are grouped",
  "key => value pairs among arguments and array elements are merged into hashes: adjacent pairs into one hash, order preserved, and no bare pair remains.",
  "every list of elements","unbounded lists",["parser/parser.go: joinHashEntries, processHashEntries"])
p("Floats are correctly rounded",
  "A float literal denotes the float64 nearest to its decimal value (ties to even), and overflow gives infinity.",
  "every float literal","unbounded digit strings",["parser/lexer.go: consumeFloat (strconv.ParseFloat)"])
p("Validated plans",
  "Definitions in plans are validated like those in functions.",
  "every tree","all trees",["validator/checker.go: Check"])
p("The grammar is parsed",
  "Every source of the Puppet grammar (literals, variables, arrays, hashes, calls, indexes, methods, lambdas, operators, selectors, conditionals, case, resources, defaults, overrides, collectors, classes, defines, functions, plans, applications, nodes, sites, types, assignments, relationships, statement calls) is accepted and gives exactly the tree of the grammar; so the grammar is unambiguous, and Program.Definitions() holds exactly the definitions of the tree, inner ones first.",
  "every token sequence of the grammar and all white space and comments between tokens","infinitely many sources; nesting is unbounded",["parser/parser.go","parser/lexer.go"])
p("Heredoc margins, dashes, escapes and syntax",
  "The text of a heredoc is what its declaration and end tag say: the margin bar takes that many blanks off each line that has them, the dash takes off the last newline (and a carriage return before it), the enabled escapes (\\t \\s \\r \\n \\u \\$ and backslash newline) are replaced and all others are kept, and the syntax is the one declared; lexing goes on right after the declaration and, at the next newline, after the line of the end tag.",
  "every declaration, content and end tag line","unbounded texts",["parser/lexer.go: consumeHeredocString, applyEscapes, stripIndent"])
p("Interpolated strings are their segments",
  "A double quoted string with $name and ${expression} in it is parsed into exactly its segments in order: the texts with their escapes replaced, and the expressions as if they stood by themselves, except that a name (also one that is indexed or on which a method is called) is a variable. Expressions may contain such strings to any depth.",
  "every sequence of texts, names and expressions, to any depth of nesting","infinitely many strings; nesting is unbounded",["parser/lexer.go: consumeDoubleQuotedString, consumeDelimitedString, interpolate, convertNamedAccessLHS"])
p("Templates render their texts and values in order",
  "An EPP template, with or without parameters, is parsed into a lambda with exactly these parameters whose body renders the texts (with <%% and %%> unescaped, comments left out, the blanks before <%- and the blanks and newline after -%> removed) and the values of the expressions in <%= %>, in the order of the source; code in <% %> is the code of the grammar, with the texts between as its statements.",
  "every sequence of texts, tags and code of the grammar","infinitely many templates; nesting is unbounded",["parser/lexer.go: consumeEPP","parser/parser.go: parse, parseTopExpression, asEppLambda"])
p("The PN of a tree says what the tree is",
  "From the PN form (or from its data form, or from its text when it has no floats) of a parsed tree the tree can be read back: every node with its kind, operator, names, values and parts in order. Only positions are lost, and that an elsif is not an else with an if in it, that statements separated by commas are not an array, the radix of a variable's index and the flags of reserved words and templates. Two programs with the same PN therefore have the same tree in this sense.",
  "every source that parses, in every state of a parser and with all options, and every node of its tree","infinitely many trees; a statement about all pairs of trees",["parser/expression.go: ToPN methods, pnIf, definitionPN, parametersEntry, binaryOp","parser/workflow.go: ToPN","pn/pn.go: AsCall, AsParameters"])
p("Workflow steps are parsed to their tree",
  "With the workflow option, action, resource, stateHandler and workflow steps - with their properties, parameters, results, iteration and body, nested to any depth - are accepted and give exactly the tree of the grammar: names are qualified with the workflows around, the variables and calls in the state of a resource become deferred calls, and the definitions are the outermost steps and what is defined inside steps, but not inner steps. Without the option their words are plain names.",
  "every workflow of the grammar","infinitely many sources; nesting is unbounded",["parser/parser.go: resource, stepDeclaration, stepProperty, stateAttribute, convertToDeferred, iterator, returnParameter","parser/workflow.go"])
p("Parse reads the whole source",
  "When Parse succeeds it has read the source to its end: nothing after the last statement, tag or text is ignored, so the program begins at offset 0 and is at least as long as the source; without heredocs and workflow syntax it is exactly as long, and its text is the source. The source contains no NUL byte, and EPP and workflow syntax are not used together.",
  "every source that parses, in every state of a parser and with all options","infinitely many sources and parser states; every construct of the language ends a source somewhere",["parser/parser.go: Parse, parseTopExpression, parse, step, identifier, resourceExpression","parser/lexer.go: nextToken, skipWhite, consumeEPP"])
p("The simple lexer reads the tokens of a source",
  "Calling NextToken again and again on the lexer of NewSimpleLexer gives the tokens of the source - kinds and values - one after the other and in order, and after the last of them the end, as often as it is asked for; the end is told only when the source has been read.",
  "every sequence of tokens of the lexical grammar, with any white space and comments between them","infinitely many sources",["parser/parser.go: NewSimpleLexer, Lexer, NextToken, CurrentToken","parser/lexer.go: nextToken, skipWhite"])
p("A malformed token is reported for what it is, where it begins",
  "Strings, backtick strings and block comments that do not end before the source does, characters that begin no token, a name or variable with a part that is none, a number with a letter or without the digits it needs, and malformed unicode and hexadecimal escapes are reported each with its own code. What is reported is the start of the token; of a number the first character that is wrong, and of an escape its backslash. If such a token is the first of a source, Parse reports it in every state of the parser.",
  "every text of these kinds, whatever white space and comments before it, whatever comes after it, and every state of the lexer without a pending heredoc","infinitely many texts and lexer states",["parser/lexer.go: nextToken, skipWhite, unterminatedQuote, consumeQualifiedName, consumeFloat, consumeDelimitedString, appendUnicode, appendHexadec, consumeBacktickedString"])
p("Options change only the sources that use them",
  "Backticked strings, hexadecimal escapes, tasks and workflows can be switched on or off without any effect on a source that has no backtick, no \\x, no plan, and none of the words action, resource, stateHandler and workflow in it: Parse comes to the same result - tree, positions and definitions, or the same error in the same place - and so do parsing with validation and the command line with -t or -w.",
  "every source and every pair of option sets that differ only in options of which the source has nothing","infinitely many sources; every place where the parser looks at an option",["parser/parser.go: CreateParser, Parse, step, parseTopExpression","parser/lexer.go: nextToken, consumeQualifiedName, consumeDoubleQuotedString","parse/parser.go: main"])
p("What an error says it found stands where the error is",
  "When Parse reports that something was expected and something else found - a token that is not the expected one, or neither a comma nor the closing token in a list - then what it says it found stands in the source at the place it reports: the punctuation, operator or keyword itself, or a name, a type name, a variable, a number, a quoted string, a regular expression, or the end of the source. And it says that something else was expected than what it found (a bar and a brace are each the name of two tokens). When Parse reports an unexpected token, and the source is made of bytes and has no type definition (the word type does not occur), that token, or the character that begins no token, stands at the place it reports; a plus sign without an operand is reported behind it. Strings with interpolations and heredocs are not placed; in templates neither are the texts and the end.",
  "every source (any bytes), all options and both entry points","infinitely many sources and errors; every place where the parser expects a token",["parser/parser.go: assertToken, expressions, Parse","parser/lexer.go: nextToken, tokenMap, keywords"])
p("A manifest that validates without errors obeys the rules of the language",
  "When validation reports no error (and does not crash), then everywhere in the tree: classes, defined types and nodes are at the top (only blocks between them and the program or a class), functions, type aliases and mappings at the very top; class, defined type and function names are segments beginning with a lower case letter, those of aliases with an upper case one; there is no += or -=, and nothing is assigned to an element, a numeric variable or a variable of another scope; the default of a parameter assigns nothing outside lambdas; a case and a selector have at most one default; only the last parameter of a function or lambda captures the rest, none of a class or defined type does, nor is it called name or title; conditions, operands, elements, keys and values are no definitions or collectors; queries compare for equality, joined by and, or and parentheses; a resource body has at most one * =>; defaults, overrides and classes are not virtual; +> is in overrides and collectors only; quoted host names have no other characters than letters, digits, underscores, hyphens and dots; reserved words are not used.",
  "every tree (parsed or built), all three validators, every strictness, every node at any depth","infinitely many trees and depths; the rules are conjunctions over all nodes",["validator/checker.go: the check functions","validator/tasks_checker.go, workflow_checker.go","validator/validator.go: Validate"])
open('/verif/properties.jsonl','w').write(''.join(json.dumps(x)+"\n" for x in P))
print(len(P))
