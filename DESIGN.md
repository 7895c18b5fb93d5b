# Formal model of bool-parser-java in Rocq (Coq 8.16.1)

The library turns an expression string into a tree and evaluates the tree against a map. The model follows the same
pipeline, function by function, as total Gallina functions. `properties.jsonl` lists the properties, `MANIFEST.json`
the theorems that settle each of them, and `seeded/LOG.jsonl` the wrong programs the theorems were tried on.

## Trusted base

* Coq's kernel (8.16.1), with no check switched off. `coqchk` re-checks the compiled files.
* Axioms: none. Every property theorem is followed by `Print Assumptions` and each prints
  "Closed under the global context". (Files of the standard library that get loaded mention axioms of their own, for
  example `Coq.ssr.ssrunder`; no theorem depends on one.)
* Only the standard library is used: no other library, no plugin, no functor, no section variable that is not
  discharged.
* That the model is the code. Each definition cites the file and lines it models. `Conformance.v` replays the
  repository's tests (`application/*Test.java`, `parser/antlr/*Test.java`) on the model by computation, as a check of the reading; nothing
  depends on it.
* That `Recover.v` is ANTLR's behaviour on malformed input: it was written from the algorithm of the runtime
  (`DefaultErrorStrategy`, `Parser.match`, the generated `expression(int)`), which is not in /repo, and compared by
  computation with an independent port of the runtime (the ATN serialised in `BooleanExpressionParser.java`, adaptive prediction, `sync`, single
  token deletion and insertion, `recover` with the context-sensitive follow sets) on about 19,000 random token
  sequences without a difference.
* That `LexerTable.v` is the array in `BooleanExpressionLexer.java` (copied by a script that reads the Java string literals) and
  that `LexerAtn.v` is what the ANTLR runtime does with it. Its cache of DFA states is not modelled: it only memoises `step`.
* That `ParserTable.v` is the array in `BooleanExpressionParser.java` (copied by a script), that `ParserAtn.v` decodes it as the
  runtime does and follows the generated methods, and the contract of `adaptivePredict`: if some alternative of the decision
  lets the rest of the input be accepted in the current calling context, it returns the lowest such alternative. How the runtime
  computes that (configurations, DFA cache) is not modelled.
* The reading of the JDK (`Integer`, `Long`, `BigDecimal`, `LocalDate`, `LocalDateTime`, `DateTimeFormatter`,
  `ConcurrentHashMap`-free `HashMap`/`EnumMap` lookups), of ANTLR 4.13 (adaptive LL(*) parsing of a left-recursive rule,
  maximal munch, lexer error skipping, tree walking order), of `maven-artifact`'s `ComparableVersion` and of Caffeine's
  `get` is from their documentation and from knowledge of their source; these libraries are not in /repo.

## What is modelled

| Model file | Java source | Content |
|---|---|---|
| `Base.v` | - | result type with the Java exception kinds, strings as lists of UTF-16 code units |
| `JNum.v` | `java.lang.Integer/Long` | 32/64-bit wrap, decimal printing and parsing of integers, long-to-double rounding |
| `BigDec.v` | `java.math.BigDecimal` | unscaled value + scale, + - *, divide with rounding, compareTo, strip, toString, toPlainString, parsing |
| `Dates.v` | `java.time.LocalDate/LocalDateTime`, two `DateTimeFormatter` patterns | SMART parsing, ISO parsing, order, epoch day, printing |
| `Version.v` | `ComparableVersion` (maven-artifact 3.5.2) | parsing to items, normalisation, comparison |
| `Values.v` | `ValueUtils`, `datatype/*`, `ContainerDataType`, `DataType` | runtime values, data type detection, conversions, map lookup |
| `Ops.v` | `operator/**` | comparison and arithmetic operators, `OperatorService` |
| `Funcs.v` | `function/**` | the ten functions, `FunctionEvaluatorService` |
| `Ast.v`, `Eval.v` | `domain/**`, `application/**` | trees and the two evaluators |
| `Locale.v` | `constant/Operator.java`, `constant/FunctionType.java`, `parser/antlr/BooleanFilterListener.java` | the listener again, with operators and functions looked up by case-converted symbol in a default locale |
| `Reads.v` | `application/**` | the evaluators again, with the look-ups in a map that may change in between and the readings of the clock they make |
| `Messages.v` | `application/**`, `operator/**`, `function/FunctionEvaluatorService.java`, `exception/**` | the evaluators again, with the message each exception of the library carries |
| `ParseMessages.v` | `parser/antlr/BooleanFilterListener.java`, `parser/antlr/BoolParser.java` | the listener again, with the message each exception of the library carries, on sentences of the grammar |
| `Maps.v` | `application/**`, `util/ValueUtils.java`, `parser/antlr/*BoolParser.java` | the evaluators again, over any map object or null; parsers given null |
| `Lexer.v` | lexer rules of `BooleanExpression.g4` | maximal munch tokeniser incl. ANTLR's lexer error skipping |
| `LexerTable.v`, `LexerAtn.v` | `BooleanExpressionLexer._serializedATN` and the runtime that reads it (`ATNDeserializer`, `LexerATNSimulator`, `Lexer.nextToken`) | the shipped tables, copied number by number, their decoding and the simulation on code points; C52 proves it equal to `Lexer.v` on every text |
| `Grammar.v` | `BooleanExpressionParser.expression(int)` | parse trees and the precedence climbing parser |
| `ParserTable.v`, `ParserAtn.v` | `BooleanExpressionParser._serializedATN`, the generated methods, `ATNDeserializer`, `LL1Analyzer`, the contract of `adaptivePredict` | the shipped tables, copied number by number, their decoding, acceptance with return states and precedence predicates, and the error-free runs of the generated methods; C62 proves them equal to `Grammar.v` |
| `Recover.v` | the same method with ANTLR's `DefaultErrorStrategy` | what the parser builds from any token sequence, well-formed or not |
| `Listener.v` | `BooleanFilterListener` | the stack machine run by the tree walker |
| `Api.v` | `BoolParser`, evaluators' public methods | string in, result out |
| `Cache.v` | `CachedBoolParser` | histories with arbitrary eviction |
| `CacheThreads.v` | `CachedBoolParser` | threads sharing one, with the locks `Cache.get` takes |
| `Heap.v` | `domain/**`, `CachedBoolParser` | trees as mutable objects, setters, sharing |
| `Registry.v` | `OperatorFactory`, `DataTypeFactory`, `FunctionFactory` | interleavings and happens-before executions of initialisation and lookup |

## Where the statements live

Specifications that the theorems mention are in small separate `Spec*.v` files. The theorems are in `Props*.v` files,
which contain nothing but statements, `exact`, examples that meet the hypotheses, and `Print Assumptions`. Proofs are in
the other files.

| Specification | What it says |
|---|---|
| `SpecNum`, `SpecArith` | the rational number a runtime value denotes; trees with one operator |
| `SpecBool`, `SpecPath`, `SpecName` | meaning of conditions built from connectives; walking nested maps along a dotted name; fields a tree mentions |
| `SpecCompare` | comparisons of one field with one literal, lists |
| `SpecDate` | proleptic Gregorian calendar, written dates and date-times |
| `SpecFunc` | order statistics, frequency, truncation |
| `SpecLex` | the lexical rules as regular expressions, maximal munch |
| `SpecGrammar` | derivation trees, declared levels, what it means for a tree to respect them |
| `SpecStray` | lists with stray words |
| `SpecAlphabet` | the characters the other specifications speak of |
| `SpecShown` | the text of a value |
| `SpecTyped` | the type a value is taken for |
| `SpecSpelled` | the field name a literal is taken for |
| `SpecOddList` | the elements of the lists in an expression |
| `SpecRecover` | token sequences that end in an operand or may not continue an expression |
| `SpecRecord` | the data type recorded in a comparison |
| `SpecTight`, `SpecOdd` | layouts: where white space may be left out; list elements with a sign or parentheses; words of digits and dots |
| `SpecSyntax`, `SpecText`, `SpecDefault` | conditions as a user writes them, and their meaning; conditions with omitted field |
| `SpecThreads`, `SpecHeap`, `SpecFailures` | answers of threads; trees held by objects; lists of exceptions |
| `SpecCompute` | the result of each arithmetic operator by the types and values of its operands |
| `SpecCall` | the outcome of a function call by the number, types and values of its arguments |
| `SpecReads` | accesses of an evaluation, the moments it lasts |
| `SpecInsert` | values written into a text: which have a printed form that is read back |
| `SpecList` | asking a question of one after the other; the questions of IN and CONTAINS |
| `SpecScale` | the number of decimals a number is held with, first extreme and place in a stable order, texts in full |
| `SpecExact` | the outcome of an operator, a negation and a call, decimals included |
| `SpecMeaning` | the outcome of whole expressions and conditions, rule by rule; literals; the trees texts have; assumptions on the data |
| `SpecPosition` | the numbers a text begins with, the side its first label puts it on, looser bounds |
| `SpecRename` | names that stand for the same in two maps, texts that differ in names only, nesting |
| `SpecMessage` | what a message may mention, and the message of each refusal |
| `SpecMaps` | what a path of keys leads to in map objects, answers that are alike |
| `SpecGrowth` | bounds on the magnitude and the printed length of values and of the data |
| `SpecPlaces` | bound on the decimals of a number and of the data, parts of an expression |
| `SpecWrite` | the conditions and arithmetic expressions that have a text; the words of a comparison of two calls |
| `SpecChain` | rows of operands and how they are grouped; rows of conditions; both nested in parentheses |
| `SpecTrend` | operands that rise, collections that grow, conditions that can only turn true or only false |
| `SpecCourse` | dates, date-times and versions that move forward, and conditions that follow them |
| `SpecForm` | numbers held as text, and conditions that compare them only with numbers |
| `SpecStamp` | dates and date-times held as objects or text, and conditions that look at nothing else |
| `SpecShuffle` | collections whose members come in another order, and conditions that test membership in them |
| `SpecPlace` | the operator read from the right, and families of values within which equal values may replace each other |
| `SpecOwn` | the range of scales and digit counts of a BigDecimal |
| `SpecDoubled` | list conditions whose first element has two operators |
| `SpecElements` | conditions on lists and calls with computed elements |
| `SpecRepr` | numbers held in different types, conditions that look at numbers only |
| `SpecQuote` | the parts of a text and what may be complained about |
| `SpecSize` | the objects and the depth of a tree; the words of a chain of comparisons |
| `SpecLocale` | the keywords whose case conversion depends on the locale |
| `SpecLabel` | version texts with a label, and their order |
| `SpecMixed` | texts denoting numbers, what a value may be read as, the type two values are compared as |
| `SpecRewrite`, `SpecOrder` | laws for rewriting conditions; outcomes with the same value |
| `SpecCache`, `SpecRegistry` | histories of calls with eviction; lookups in interleavings and under the Java memory model |

## Plan per property

* C01, C02 - evaluator on trees; equations by unfolding plus case analysis on the operand results. The statements
  quantify over arbitrary trees, so no induction is needed, but they mention failures explicitly.
* C03, C04, C05 - characterise the operator service on numeric values through the rational value of an operand
  (`SpecNum`), then lists by induction.
* C06 - C09 - printing and re-parsing a number preserves its value, hence each comparison is the rational
  comparison; C09 by a computed witness (refutation) and a characterisation.
* C10 - model of ComparableVersion; induction over the component lists.
* C11 - C14 - evaluator; C12 by induction on the path against an independent path-walking specification; C14 by
  structural induction on trees.
* C15 - C20, C44, C45 - arithmetic operators with explicit `mod 2^32`/`mod 2^64`; pow is a parameter with its documented
  contract as hypothesis.
* C21 - C28 - functions over lists by induction; sorting via permutation and sortedness.
* C29 - operator/function services.
* C30, C48 - formatter model; case analysis plus arithmetic; order via lexicographic comparison; epoch-day via the usual
  civil-date lemma.
* C31 - C34 - lexer model; the matchers are proved equal to regular expressions, maximal munch by induction on the input.
* C35, C36 - parser model; soundness (yield and precedence) and completeness (every precedence-respecting tree is
  parsed back), fuel always suffices; C36 by general theorems about the trees of `a - b + c` etc.
* C37 - C41 - listener invariants by induction on trees, composed with lexer and parser theorems; refutations are
  stated for all operands where possible. C41 by a simulation between the walks of the text with and without the field.
* C42, C43 - invariant over histories, arbitrary eviction at every step.
* C46, C47 - invariant over interleavings of atomic map writes and reads; and, for C46, over every happens-before
  consistent execution (a read may return any write not ordered after it and not overwritten before it).
* C49 - C51 - the parser with error recovery ends on every token sequence (fuel bound by induction), agrees with the plain
  parser on sentences, and puts only tokens of the text into its tree; the listener's failures and the origin of fields by
  induction on arbitrary trees. C50 by running the recovery on the continuation, which is never looked at.
  Lists with stray words (StrayFacts): the recovering parser is run element by element, and then agrees with the sentence's parser on what follows the list.
  Elements without a reading (OddListFacts): the walk fails in every listener state, and so does the walk of every expression around it.

* C52 - the serialised automaton is decoded inside Coq; a table of the 177 reachable sets of configurations, each with the
  derivatives of the 47 rules, is checked by computation for one representative of each class of characters that no label
  tells apart; the simulation of arbitrary texts then follows by induction on the text. Surrogate pairs are one character for
  the automaton and two units for the rules; the table also shows that no token ends between them.
* C53 - the lexer theorem for white space is extended to touching tokens: no rule of the grammar matches across the
  junction, by the shapes of the rules; then induction over the layout.
* C54 - C58 - the tree of the form in question, shown to be the parser's by completeness, and the listener run on it.
* C59 - interleaving semantics of threads calling `Cache.get`; invariants over schedules (entries come from calls, holders of a lock
  are unique, a kept key has been parsed once); progress by a measure that some thread can always decrease.
* C60 - heap of node objects with references; a parse allocates fresh objects at the end, so reads of the new tree cannot see
  earlier writes; for the caching parser an invariant over read-only histories, and a general counterexample.
* C61 - every function of the evaluators classified by the exceptions it can raise, bottom up.
* C62 - the serialised automaton is decoded inside Coq. Acceptance is an inductive relation with return states and predicates; a
  run of the generated methods asks it for the lowest viable alternative at every decision. Induction on the fuel of the parser model shows that every accepted
  sequence is parsed and gives a run; a converse induction that what is parsed is accepted; and runs are deterministic.
* C63 - a specification of what a value is (`stands`), what it may be read as (`read_as`) and how readings compare (`compared`); conversions are
  proved to succeed exactly on the readable values, and a date or boolean never to read as a number (by the shapes of the printed texts).
* C64 - an inductive relation of rewriting steps with congruences; induction on it. The range law needs that two bounds of one type fail alike.
* C65 - each function's evaluation shown invariant under permutation of the typed arguments (least and greatest elements, sums, sorted lists by
  value); validation of non-null arguments fails alike.
* C66 - the recorded type of a comparison as a condition on trees (`SpecRecord.v`); the induction of C37 over the listener repeated with
  that condition added; two trees that both satisfy it and differ in recorded types only are equal; for any text an invariant of the
  listener's stack.
* C67 - case analysis on the types two values can have, over the lemmas of C15-C20 for each operator; what becomes of a double from its
  exact decimal expansion.
* C68 - the evaluators as computations that number their accesses (`Reads.v`); they agree with the plain evaluators on data that has what was
  read (induction on the tree, one lemma for sequencing); the accesses are a sublist of the fields mentioned; a map is put together
  from the values at the moments of access.
* C69 - the shapes of the printed texts of numbers (digits, digits with a point, mantissa and exponent) against the lexical rules; each
  shape is laid out as the words of a sentence, or as a sentence followed by ignored text (C50), and read by the lemmas of C37 and C53.
* C70 - the tokens of a version text with a label computed by induction over its letters and digits; normalisation removes the zeros before
  the label; lists that end in a label compare by components first (induction), then by the table of labels.
* C71 - the checks of a call in their order (count, types, validity), then the lemmas of C21 to C28 case by case; AVG redone for sums beyond 64 bits,
  DAYS_ELAPSED for every text that stands as a date.
* C72 - the listener with look-ups by symbol and the listener by kind of token are simulated by each other for any relation on trees that
  the node constructors respect (equality, containment lost, same class of node); the tokens in operator positions of any parse
  tree are operators (`TreeKinds.v`); a finite table of keyword texts is computed per locale.
* C73 - the size of a parse tree is at most 2 per token and 1 (parser with error recovery, by its fuel); the listener turns it into at most the
  square of that many objects (each exit maps its whole operand again, and pops what was built so far); the depth of the chain is computed by
  induction on its links.
* C74 - anyMatch and allMatch of any question against the two inductive definitions of asking one after the other; the single question is C63 for `=`,
  texts for CONTAINS; the checks before it in their order.
* C75 - the model's decimals carry their scale, so every operation is unfolded once; MIN and MAX by an invariant of the fold (the first best of the prefix), MEDIAN by
  an induction on the stable insertion sort that counts lower elements and earlier equal ones, printing by the length of the digits against a millionth.
* C76 - the rules of C67, C71 and C75 put together as one predicate per operator and function; soundness from those properties, uniqueness of the outcome
  by cases on the types (uniqueness of wrapping, rounding, stripped decimals, first extreme, place in a stable order, mode).
* C77 - mutual inductive rules for values, answers, operands and list elements; equivalence with the two evaluators by induction on the tree, each single step from
  C63, C74, C76 and C12's look-ups; that results are again values with genuine types is part of the induction.  That every text gives a tree the rules cover is an
  invariant of the listener's stack, on top of the token kinds any recovered parse tree has.
* C78 - induction on the tree with C76's decimals of single operations and calls; literals through the listener (a decimal token has fewer decimals than characters);
  the size of the tree from C73.
* C79 - the scanner only ever adds items, so the numbers at the front and the first item after them survive; a list of items against numbers compares by the leading
  numbers and then by the sign of the rest.  The bounds follow from the order of number lists; the circle is a computation.
* C80 - a relation between trees that differ in field names standing for the same; the parser depends on token kinds only (induction on the derivation), the listener keeps the
  relation between the two stacks, both evaluators agree on related trees.  Nesting by the paths of prefixed names.
* C81 - the evaluators once more, with the message beside each exception; forgetting the messages gives back the evaluators, so everything proved about those holds of these.
  What a message mentions: induction on the tree.  The last name looked up: induction along the evaluators that record accesses (C68).  The exact messages: the checks in order.
* C82 - the evaluators once more, over a function in place of the map; any relation between outcomes that is reflexive and kept by sequencing carries over from look-ups to outcomes
  (induction on the tree), used with equality and with "that exception or equal".  The cache by induction on the history.
* C83 - induction on the tree with the exact outcomes of C76: sums add at most, products add the exponents, a quotient is bounded by the dividend and the decimals of the divisor (C78), the sum over lists is bounded
  item by item; the printed form is bounded through the number of digits; literals through the listener.
* C84 - induction on the condition: a text in the grammar of C37 is found for each, memory of the listener included (double negation resets what a later comparison could take); the meaning is then
  that of C37 and C77.  The refutation by running the listener on the two sides.
* C85 - the parse tree of the comparison by completeness of the grammar; the listener run on it leaves the two calls under the comparison, so that a connective pops the wrong pair.
* C86 - the listener once more with its messages; forgetting them gives back the listener.  Induction on the parse tree: each throw is about the context at hand, a part of the whole; a walk that leaves no node has
  seen exactly one operand, so the last two throws are out of reach; field tokens are never blank.
* C87 - the grouping relation is total and unique (induction on the length, the last of the loosest operators); it gives a parse tree by the rules of the grammar, complete by C35; the listener by the discipline of
  C37, after an expression of any sort.  Rows of conditions by induction from the right, the answers by folding.
* C88 - induction on the condition with both trends at once, NOT exchanging them; comparisons by C06, unchanged parts by C14; texts by C87.
* C89 - further cases of the induction of C88; membership by C05 and a short-circuiting search for IN; functions by C21, C22, C26, C27, decimal sums by C17.
* C90 - induction on the condition; numbers by C06, ranges by C03, lists as rows of equalities by C04; operands by C15 - C18, C27 and the uniqueness of the number a value stands for.
* C39 (lists) - the tree of an element with two operators handled from any state of the listener, then the row as for C91 (DoubledText).
* C60 (separate trees) - a parse allocates the same objects whatever the heap contains, only its size matters; writes to either part of the heap stay there.
* C91 - the trees of the elements by induction, with what handling them leaves on the stack (ElementFacts); rows by induction from the left (ElementText).
* C92 - a failing part makes the walk over every tree around it fail (induction on `inside`); the difference by C87, C90's exactness of differences and C06.
* C93 - each comparison is decided by a three-way comparison (C30, C48 and the version order); the comparison can only move up when the sides move apart (transitivity), then the induction of C88.
* C94 - each comparison by C63 (text and number meet as the number's type, for = as text), numerals are injective, then induction on the condition.
* C95 - the answer of each comparison is a function of the two days or moments alone (C30, C48, C63); IN is the OR of its comparisons (C67); then induction on the condition.
* C96 - anyMatch is true only if some member passes and false only if none does, so two orders cannot disagree; functions by C65, comparisons by C90; then induction on the condition.
* C97 - by C63 the outcome is the comparison of the two readings; the type the values meet in does not depend on their order and every comparison is antisymmetric; within a family the reading does not depend on the other side.
* C98 - the text of a value makes both sides be read from that text (C63); for date objects printing and reading back are inverse; BigDecimal.toString is read back by a case analysis of its three layouts.
* Shared vocabulary (AlphabetFacts, for C11, C34, C52, C98) - the digits, letters, lower case and numerals that specifications take over from the model are compared with explicit tables.
* C44, printed forms (ShownFacts) - the text of every value is described by a relation on values of any nesting; induction on the value.
* C67, types (TypedFacts) - the type a value is taken for is described by a relation that does not call the library's detection; case analysis with C30 and C48.

## Findings

Behaviour established by theorem (name in brackets) or by computation on the model:

* Comparators bind tighter than arithmetic and connectives, so `x + y < z` means `x + (y < z)` and is always false
  [C36]. `NOT a = 5` negates `a` and fails. `-10 < a` fails with a `ClassCastException`.
* `x = 1 AND flag`, `a AND b`, `x = 1 AND NOT b` fail: the listener expects every operand of a connective after the first
  to be a pending boolean node [C38, C40]. A bare field as whole condition is always false, whatever the data [C40].
* After IN, a range, CONTAINS, a function or an arithmetic comparison, a following comparison fails or is misread [C38].
  `x = 1 AND min(a,b) > max(c,d)` is silently wrong; `(a+b) > (c+d)` fails with "invalid expression".
* Lists and functions with a compound element: `sum(1+2+3,10)` is 19 and `c IN (a+1+1,4)` looks for a+1+1+1 [C39], `min((1+2)*3,100)` is 27,
  `min(4,5)+min(1+2,3)` is 6, `x IN (1+2) AND y = 5` is silently false. Negative numbers and parentheses in lists fail.
* `a > (5)`, `(a) = 5`, `-5 - -3`, `-a * -b`, `-min(a)` fail; `(a+b)*-c` negates the wrong node.
* Keywords in mixed case are field names [C32]; characters no rule accepts are dropped silently [C31].
* A version literal whose major part has two digits or more is a field name; a two-part version is a decimal number.
* The text `5` alone evaluates to the text "5"; the empty text parses to the field `<EOF>` [C41].
* The default field is not used for an omitted operand of NOT or for an empty text [C41].
* Equality between text and number is not a trichotomy [C09]; texts that look like dates break transitivity [C08].
* MIN and MAX compare through doubles and lose precision above 2^53 [C21]; LEN of an empty list fails and LEN of a
  one-element text list is the length of the text [C26]; functions of a single number fail.
* `a - b` is not `a + (-b)` at the 32/64-bit boundary [C16]; unary minus fails for Float and Double fields [C45].
* An invalid date literal becomes null rather than an error [C30, C48]. `DAYS_ELAPSED` rejects a day past the end of a
  short month that comparisons accept [C28].
* The caching parser's key is `expression + "_" + default`: an underscore in the default field can be mistaken for part
  of the expression, and an absent default field is not told apart from an empty one [C42].
* A registered data type is undone by the next construction of an evaluator [C47]; a thread that has only built a parser
  finds every operator, but may find no data type and no function [C46].
* Malformed texts are accepted: `a = 5 b = 6` is `a = 5`, `((a = 5)` and `a = 5)))` are `a = 5`, `a IN (1, 2` is
  `a IN (1, 2)`; `f IN (1 2, 3)` is `f IN (1, 3)`, and `f IN (1 2 3, 4) OR x` is `f IN (1) OR x`; `sum(f g, h) > 10` is `sum(f, h) > 10` [C50]; `min(1, 2` and `min(1 2 3)` are rejected.
* `2020-12-10` without spaces is a date, not a difference [C53].
* Negative literals work only on the right of a comparison: `f IN (-1, 2)`, `min(-1, 2)` and `-1 = f` fail, `f -20 TO 5` is false
  for all data [C54].
* `NOT a = 1` fails; `NOT (a = 1)` works [C55].
* `a + 1` or `min(a, b)` given to the boolean evaluator is false, and `NOT (a + 1)` is true [C56].
* `(a) = 1`, `a = (1)`, `a + (1)` fail [C57].
* `.5`, `5.` and versions such as `12.1.3` are field names [C58].
* `CachedBoolParser` hands out its cached object: a client that calls a setter on a tree, or changes a list in it, changes the answer
  for every later user of the same text [C60].
* The field name `.` makes any evaluation fail with an `ArrayIndexOutOfBoundsException`, and so does every name made of dots alone [C12, C61].
* A text field holding `5.5` or `3000000000` cannot be ordered against the whole number `5` (failure), only against `5.0` [C63].
* `n != d` for a number and a date, or a boolean and a number, fails instead of being true [C63].
* `f 6.5 TO 10` on the text `3.5` fails while `f >= 6.5 AND f <= 10` is false; `f IN (1, g)` fails if `g` is absent even when `f` is 1 [C64].
* `mode(1, 2)` is 1 and `mode(2, 1)` is 2 [C65].
* `5 = f NOT IN (1) b` records the data type STRING for a comparison whose only literal is an integer [C66].
* `(f >= 1) AND (f <= 5)` reads `f` twice: while another thread changes `f` it can be true although it is true at no moment. The range `f 1 TO 5` reads it once.
  `DAYS_ELAPSED(f) = DAYS_ELAPSED(f)` reads the date twice and can be false at midnight [C68].
* Writing a value into an expression text: a BigDecimal such as `1.23E+3` or a double such as `1.0E-4` makes the condition false for every
  operator and all data, even `!=`; `1.0E7` is taken for a field; `-9223372036854775808` is rejected; `2020-01-31T10:15` is read as
  `2020-01-31`; `name = 'O'Brien'` tests for `O` [C69].
* `avg(9223372036854775807, 6)` is negative (the sum wraps around); `min(f)` fails for a list field with one member; `days_elapsed('2024-02-30')` fails
  although the text is accepted as a date in comparisons [C71].
* With a Turkish or Azeri default locale `min(...)`, `median(...)` and `int(...)` are rejected by the parser, and `contains_all` and `contains_any` throw
  InvalidContainerType; `MIN(...)` and `CONTAINS_ALL` work. `toUpperCase()` and `toLowerCase()` are called without a locale [C72].
* `x=(y+1)=1=1=1...` is accepted and its tree grows with the square of the text: `mapComparatorExpressionContext` maps the whole left operand again at each
  level and pops the tree built so far at the bottom. The evaluator recurses to that depth: a text of a few hundred characters gives a tree some ten thousand levels deep [C73].
* `f contains_any (5)` throws ClassCastException if f holds a Set or an array, although both pass the check of the container; a null in a list throws
  NullPointerException in IN and CONTAINS unless the answer is known before it is reached [C74].
* Equality with a text sees the decimals a result happens to have: with x = "0.25", `x = (1/4)` is false (the quotient prints 0.250) while `x >= (1/4)` and `x <= (1/4)` are
  both true; AVG of whole numbers prints two decimals, of numbers with a decimal among them three [C75_text_refuted, C75_average].
* Text in front of the numbers hides them: with f = "v1.2.3", `f < 0.0.1` is true; 1.2.3a is after 1.2.3 but 1.2.3a1 before it [C79_side].  The order of versions with labels is
  not transitive: 1.0.rc1 < 1.0 < 1.0-1 < 1.0.rc1 [C79_transitive_refuted].
* A quoted text alone as a condition, or alone under NOT, is looked up as a field: `NOT 'a'` depends on whether the data has a field a [C80_literal_refuted].
* An arithmetic operator reports a wrong right operand as a left one: `1 - 'x'` and `'x' - 1` both say "Invalid left operand data type STRING for operator SUBTRACT"
  [C81_side_refuted]; of a NaN on the right it says "for the operand DECIMAL" [C81_value_refuted]; `n = zz` with zz missing says nothing of zz [C81_right_refuted].
* A caching parser that holds the text null answers parseExpression(null) with its tree, where it otherwise fails: the key is built by concatenation
  [C82_cached_null_refuted].  A ClassCastException thrown by a nested map is taken for a missing field, one thrown by the outermost map is not [C82_cast_refuted].
* `(a + 1) = (b - 1)` always fails with InvalidExpression: two compound sides cannot be compared [C84_two_sides_refuted].
* `x = 1 AND min(a, b) < max(c, d)` is false for all data, and `x = 1 OR min(a, b) < max(c, d)` ignores `x = 1`; with the comparison of calls first both work [C85_second_refuted].
* `(a + 1) = (b - 1)` is rejected with "Array does not support this expression (b-1)" though there is no array; quoted parts have their white space removed: `a IN (1, 2) AND b = 3` gives
  "Error parsing binary expression for the string aIN(1,2)ANDb=3" [C86].
* In long texts AND does not bind tighter than OR, and + binds tighter than -: `20 - a * 2 + 3 - 10 / 5` is (20 - (a * 2 + 3)) - 10 / 5 [C87_case_arithmetic].
* `( a + 1 ) > 0` is true for a = 9223372036854775806 and false for a = 9223372036854775807 [C88_sum_refuted].
* `roles CONTAINS_ANY ( wanted )` fails with HeterogeneousArray once `wanted` holds a text beside the number that was found [C89_request_refuted].
* The type of a number shows in places: `- x` fails for the Double 3.0 and not for the BigDecimal 3.0; `( x % 2 ) = 1` is true for 3 and fails for 3.0; `x = '3'` and `x CONTAINS_ANY ( 3 )` are true for 3 and
  false for 3.0; `( x - 1 ) < 0` is false for the Integer -2147483648 and true for the Long [C90_negate_refuted and the theorems after it].
* A condition with a computed list element or argument hides what stands before it: `b = 2 AND INT(a / b) = 3` is always false, `b = 2 OR c IN (a - 5, 1)` ignores
  `b = 2`, `MIN(a, b) + INT(a / b)` is `a / b + INT(a / b)` [C91_later_refuted, C91_arithmetic_refuted].
* `(a + b) > (c - 1)` and every text that contains such a comparison is rejected; `((a + b) - (c - 1)) > 0` is accepted [C92].
* `app > least` with both versions held as text compares letter by letter: moving `app` from 1.9.1 to 1.10.1 turns it false; `app >= 1.5` is a comparison of decimals, so version text 1.10 fails it [C93].
* With the text 5 in place of the number 5, `(x + 1) > 20` turns true (51), `x = 5.0` turns false, and `x > y` between two texts says 10 is not above 9 [C94].
* A date-time object in place of its text changes `l CONTAINS_ANY (x)`; the text 2024-02-30 compares like the date 2024-02-29 but makes `DAYS_ELAPSED` fail [C95].
* `x IN (s)` with a set of a date and a date-time answers or fails depending on the iteration order of the set; `mode(s)` of a set depends on it too [C96].
* `=` is not transitive: text 5.0 = decimal 5.0 = integer 5, but text 5.0 does not equal integer 5; versions 1.50 and 1.5 both equal the decimal 1.5 [C97].
* With x = 5.5, `x > 5` is true; with the text 5.5 it is refused [C98].

## Simplifications

* A `Double` or `Float` is represented by the text its `toString` prints (the code always goes through that text);
  `Double.toString` itself is not modelled. The results of `Math.pow` are exact binary values, NaN or infinity.
* `Math.pow` is a parameter of the environment; the theorem about it assumes only the documented contract.
* "Today" is a parameter of the environment.
* Runtime values outside the library's vocabulary (arbitrary Java objects) are represented by one constructor
  that carries the text of `toString()`.
* Map keys are strings; a nested map is a list of bindings and lookup takes the first one. `Maps.v` has the evaluators over map objects of any kind (C82).
* Upper/lower-casing in `Listener.v` is that of the common locales; `Locale.v` has the listener with the symbols looked up by their
  case-converted texts in any default locale, on ASCII letters, and C72 says where the two differ.
* `Grammar.v` and `Recover.v` are the precedence climber that ANTLR generates. Where ANTLR would use adaptive prediction, they
  look at one or two tokens; C62 proves that this is the choice the shipped automaton makes on every sentence, and C35 that the
  result is the only tree that respects the declared levels. On token sequences that are not sentences the choice was compared
  with the port of the runtime mentioned above; the token sets used there are proved equal to those of the automaton (C62).

## Not modelled

* The messages of the JDK's exceptions and of those a text with a syntax error raises, the messages ANTLR prints for one, and the recovery of rule `parse` when the first expression is not
  followed by the end of the text: it changes nothing in the tree of that expression, and the listener ignores the rest.
* Stack overflow / out of memory for huge or deeply nested inputs (Vavr's `Try` rethrows those as errors), stderr output, logging, wall-clock behaviour.
* `Math.pow` beyond its documented contract, `Double.toString`.
* Caffeine's internals: eviction is arbitrary, loading is atomic per key (the documented contract of `Cache.get`).
