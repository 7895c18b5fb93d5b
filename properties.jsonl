{"id": "C01", "title": "AND/OR/NOT are the boolean connectives with left-to-right short circuit", "statement": "Evaluating `l AND r` returns false as soon as l is false (whatever r is, even if evaluating r alone would fail), fails exactly as l fails, and otherwise behaves as r; dually for OR; NOT negates a success and propagates a failure unchanged.", "quantifier": "all parsed expressions l and r of any depth, all data maps, both successful and failing operands", "why_tests_cant": "There are infinitely many operand expressions and data maps; tests only sample a few truth-table rows and cannot show that a failing right operand never surfaces when it is skipped.", "anchors": ["src/main/java/com/github/sidhant92/boolparser/application/BooleanExpressionEvaluator.java evaluateBooleanNode", "src/main/java/com/github/sidhant92/boolparser/application/BooleanExpressionEvaluator.java evaluateToken"]}
{"id": "C02", "title": "Boolean algebra laws hold for results, including failures", "statement": "Double negation, De Morgan, associativity and idempotence of AND/OR hold between whole results (success value or the failure), and commutativity holds whenever both operands succeed.", "quantifier": "all operand expressions and all data maps", "why_tests_cant": "Laws are equations over all operands; the failure cases (which operand's failure is reported) are the ones tests skip.", "anchors": ["src/main/java/com/github/sidhant92/boolparser/application/BooleanExpressionEvaluator.java evaluateBooleanNode"]}
{"id": "C03", "title": "Range f lo TO hi means lo <= f and f <= hi", "statement": "When a range expression succeeds, its value is true exactly when the field's numeric value lies between the two bounds, both inclusive; for a numeric field it always succeeds and a reversed range is never satisfied.", "quantifier": "all numeric field values (Integer, Long, BigDecimal, finite floating point) and all integer or decimal bounds", "why_tests_cant": "Boundary values and mixed representations (Integer field, decimal bounds) form an infinite product.", "anchors": ["src/main/java/com/github/sidhant92/boolparser/application/BooleanExpressionEvaluator.java evaluateNumericRangeToken", "src/main/java/com/github/sidhant92/boolparser/operator/comparison/GreaterThanEqualOperator.java", "src/main/java/com/github/sidhant92/boolparser/operator/comparison/LessThanEqualOperator.java"]}
{"id": "C04", "title": "IN is membership: a disjunction of equalities; NOT IN is its negation", "statement": "`f IN (a1,...,an)` succeeds with true exactly if the first equality test f = ai that does not fail with false gives true, i.e. it is the left-to-right short-circuit disjunction of the equality tests; elements that are collections contribute their members; the order and duplication of elements never changes a result when every single test succeeds; NOT IN returns the opposite boolean or the same failure.", "quantifier": "all field values, all element lists of any length", "why_tests_cant": "List length and element values are unbounded.", "anchors": ["src/main/java/com/github/sidhant92/boolparser/application/BooleanExpressionEvaluator.java evaluateInToken", "src/main/java/com/github/sidhant92/boolparser/operator/comparison/InOperator.java evaluate", "src/main/java/com/github/sidhant92/boolparser/util/ValueUtils.java mapToEvaluatedNodes", "src/main/java/com/github/sidhant92/boolparser/parser/antlr/BooleanFilterListener.java mapInExpressionContext"]}
{"id": "C05", "title": "CONTAINS_ALL / CONTAINS_ANY are subset / non-empty intersection", "statement": "For a field holding a list, CONTAINS_ALL is true exactly when every requested element is in the list and CONTAINS_ANY exactly when at least one is, where `in` means that both print to the same text; ALL and ANY agree for a single requested element; more requested elements can only turn ALL from true to false and ANY from false to true.", "quantifier": "all lists of values (any length) and all lists of requested elements", "why_tests_cant": "Unbounded lists on both sides.", "anchors": ["src/main/java/com/github/sidhant92/boolparser/application/BooleanExpressionEvaluator.java evaluateArrayToken", "src/main/java/com/github/sidhant92/boolparser/operator/comparison/ContainsAllOperator.java", "src/main/java/com/github/sidhant92/boolparser/operator/comparison/ContainsAnyOperator.java"]}
{"id": "C06", "title": "Numeric comparisons are exact", "statement": "For numeric operands each of = != < <= > >= answers exactly the corresponding question about the mathematical values, independent of representation (Integer, Long, decimal with any scale, floating point taken at its printed decimal value) and never fails.", "quantifier": "all pairs of numeric values, all six operators", "why_tests_cant": "Pairs of numbers of unbounded precision and mixed types.", "anchors": ["src/main/java/com/github/sidhant92/boolparser/operator/comparison/EqualsOperator.java", "src/main/java/com/github/sidhant92/boolparser/operator/comparison/NotEqualsOperator.java", "src/main/java/com/github/sidhant92/boolparser/operator/comparison/GreaterThanOperator.java", "src/main/java/com/github/sidhant92/boolparser/operator/comparison/NumericOperator.java", "src/main/java/com/github/sidhant92/boolparser/datatype/DecimalDataType.java"]}
{"id": "C07", "title": "Equality and inequality are complementary; ordering operators are consistent", "statement": "For any two operands: `!=` succeeds exactly when `=` succeeds and then has the opposite value; `>=` is the negation of `<` and `<=` of `>`, with success on the same operands; a > b gives the same result as b < a for numeric, date, date-time and string operands.", "quantifier": "all pairs of field values of every runtime type the library distinguishes", "why_tests_cant": "Cross product of all value types.", "anchors": ["src/main/java/com/github/sidhant92/boolparser/operator/comparison/EqualsOperator.java", "src/main/java/com/github/sidhant92/boolparser/operator/comparison/NotEqualsOperator.java", "src/main/java/com/github/sidhant92/boolparser/operator/comparison/GreaterThanEqualOperator.java", "src/main/java/com/github/sidhant92/boolparser/operator/comparison/LessThanOperator.java"]}
{"id": "C08", "title": "Comparisons within a type are a total order", "statement": "Restricted to one type (numbers, strings, dates, date-times, dotted numeric versions) `<=` is reflexive, transitive, antisymmetric with respect to `=`, and total; texts are ordered by the first UTF-16 unit in which they differ, a proper prefix coming first.", "quantifier": "all triples of values of the type", "why_tests_cant": "Transitivity is a statement about all triples.", "anchors": ["src/main/java/com/github/sidhant92/boolparser/operator/comparison/LessThanEqualOperator.java", "src/main/java/com/github/sidhant92/boolparser/datatype/VersionDataType.java", "src/main/java/com/github/sidhant92/boolparser/datatype/DateDataType.java"]}
{"id": "C09", "title": "Trichotomy between a textual field and a literal (expected, refuted)", "statement": "If a >= b and a <= b both hold then a = b holds. This fails when a field holds text and the literal is a number or a version: equality compares text but ordering compares numbers or versions.", "quantifier": "all field values and literals", "why_tests_cant": "The property mixes three operators; example tests per operator all pass.", "anchors": ["src/main/java/com/github/sidhant92/boolparser/operator/comparison/EqualsOperator.java getComparableDataType", "src/main/java/com/github/sidhant92/boolparser/operator/comparison/NumericOperator.java getComparableDataType"]}
{"id": "C10", "title": "Dotted numeric versions compare component-wise", "statement": "Ordering a version literal against version text compares the numeric components left to right, a missing component counting as 0 and components being unbounded integers.", "quantifier": "all dotted numeric versions of any length", "why_tests_cant": "Unbounded number and size of components.", "anchors": ["src/main/java/com/github/sidhant92/boolparser/datatype/VersionDataType.java", "org.apache.maven.artifact.versioning.ComparableVersion (dependency)", "src/main/java/com/github/sidhant92/boolparser/operator/comparison/NumericOperator.java"]}
{"id": "C11", "title": "Null check", "statement": "`f = null` is true exactly when f is absent, null, or holds a value that prints as the text null; `f != null` is the opposite; neither fails unless f holds a floating point NaN or infinity. The mirrored form `null = f` is true for every f (refutes symmetry).", "quantifier": "all data maps and field names", "why_tests_cant": "All maps, all nested paths.", "anchors": ["src/main/java/com/github/sidhant92/boolparser/application/BooleanExpressionEvaluator.java evaluateComparisonToken", "src/main/java/com/github/sidhant92/boolparser/domain/logical/ComparisonNode.java isNullCheck", "src/main/java/com/github/sidhant92/boolparser/domain/FieldNode.java isNull"]}
{"id": "C12", "title": "Dotted field names walk nested maps", "statement": "A field a.b.c with non-empty components denotes the value found by looking up a, then b, then c in nested maps; a step into a missing key, a null or a non-map yields `absent`; a flat key that contains a dot is never found. In a name of any other form the keys are the pieces between the dots, possibly empty, and dots at the end count for nothing; a name made of dots alone cannot be looked up (expected to be reported as absent; refuted: an index error).", "quantifier": "all data maps of any nesting, all paths of any length and all field names", "why_tests_cant": "Unbounded nesting depth and path length.", "anchors": ["src/main/java/com/github/sidhant92/boolparser/util/ValueUtils.java getValueFromMap"]}
{"id": "C13", "title": "A missing field never silently yields a value", "statement": "If an operand that is actually consulted is a field absent from the data, evaluation fails; it never returns a boolean or a number (null checks excepted).", "quantifier": "all expressions built from comparisons, ranges, IN, CONTAINS and arithmetic; all data maps", "why_tests_cant": "Quantifies over all expressions and maps.", "anchors": ["src/main/java/com/github/sidhant92/boolparser/application/BooleanExpressionEvaluator.java evaluateComparisonToken", "src/main/java/com/github/sidhant92/boolparser/application/ArithmeticExpressionEvaluator.java evaluateFieldToken"]}
{"id": "C14", "title": "Evaluation depends only on the fields the expression mentions", "statement": "Two data maps that agree on every field mentioned in the parsed expression give the same result, success or failure, for boolean and arithmetic evaluation.", "quantifier": "all expressions, all pairs of data maps", "why_tests_cant": "A frame property over pairs of maps.", "anchors": ["src/main/java/com/github/sidhant92/boolparser/application/BooleanExpressionEvaluator.java evaluate", "src/main/java/com/github/sidhant92/boolparser/application/ArithmeticExpressionEvaluator.java evaluate"]}
{"id": "C15", "title": "Integer addition and multiplication are exact when the result fits in 64 bits", "statement": "Adding or multiplying whole numbers (32- or 64-bit) returns the exact mathematical result whenever it fits in 64 bits (always, if both operands are 32-bit), as a 32-bit integer if it fits there; otherwise the result is the two's complement wrap of the exact one.", "quantifier": "all pairs of 32/64-bit integers", "why_tests_cant": "2^128 operand pairs.", "anchors": ["src/main/java/com/github/sidhant92/boolparser/operator/arithmetic/AddOperator.java", "src/main/java/com/github/sidhant92/boolparser/operator/arithmetic/MultiplyOperator.java", "src/main/java/com/github/sidhant92/boolparser/util/ValueUtils.java castLong"]}
{"id": "C16", "title": "Subtraction and negation of integers", "statement": "Subtraction and unary minus of whole numbers return the exact difference whenever it fits the wider operand type; beyond it they wrap silently (32-bit operands do not widen), so the expected `a - b = a + (-b)` fails at the boundary.", "quantifier": "all pairs of 32/64-bit integers", "why_tests_cant": "Boundary of the 64-bit product space.", "anchors": ["src/main/java/com/github/sidhant92/boolparser/operator/arithmetic/SubtractOperator.java", "src/main/java/com/github/sidhant92/boolparser/operator/arithmetic/UnaryOperator.java"]}
{"id": "C17", "title": "Decimal addition, subtraction and multiplication are exact", "statement": "If one operand is a decimal, + - * return the exact decimal result with no rounding.", "quantifier": "all decimals of any precision and scale", "why_tests_cant": "Arbitrary precision.", "anchors": ["src/main/java/com/github/sidhant92/boolparser/operator/arithmetic/AddOperator.java", "src/main/java/com/github/sidhant92/boolparser/operator/arithmetic/SubtractOperator.java", "src/main/java/com/github/sidhant92/boolparser/operator/arithmetic/MultiplyOperator.java"]}
{"id": "C18", "title": "Division truncates toward zero at three decimals", "statement": "a / b for numeric a and non-zero b is the exact quotient truncated toward zero to three decimals, returned as an integer when it is integral; division by zero fails; an integral quotient outside the 32-bit range fails although it is representable.", "quantifier": "all numeric pairs", "why_tests_cant": "Sign and rounding combinations over arbitrary precision.", "anchors": ["src/main/java/com/github/sidhant92/boolparser/operator/arithmetic/DivideOperator.java", "src/main/java/com/github/sidhant92/boolparser/util/ValueUtils.java castDecimal"]}
{"id": "C19", "title": "Modulus is the remainder of truncated division", "statement": "For whole numbers a % b satisfies a = b*q + r with |r| < |b| and r having the sign of a (or being 0); b = 0 fails; decimals are rejected.", "quantifier": "all integer pairs", "why_tests_cant": "2^128 pairs.", "anchors": ["src/main/java/com/github/sidhant92/boolparser/operator/arithmetic/ModulusOperator.java"]}
{"id": "C20", "title": "Exponentiation of small integers is exact", "statement": "For whole numbers with magnitude up to 2^53 and a non-negative exponent whose power is exactly representable as a 64-bit floating point number, a ^ b returns the exact power, as an integer if it fits 32 bits and as a decimal otherwise.", "quantifier": "all such pairs, for every implementation of Math.pow satisfying its documentation", "why_tests_cant": "Infinite pairs, and the runtime's pow is only specified.", "anchors": ["src/main/java/com/github/sidhant92/boolparser/operator/arithmetic/ExponentOperator.java", "src/main/java/com/github/sidhant92/boolparser/util/ValueUtils.java castDecimal(double)"]}
{"id": "C21", "title": "MIN and MAX return an extreme element", "statement": "MIN (MAX) over two or more numbers returns a number that equals one of the arguments and is <= (>=) all of them. Holds for 32-bit integers and for decimals (unless integral and outside 32 bits, which fails); for 64-bit integers only up to magnitude 2^53 - beyond that the result is the double nearest to the extreme (of two, the even one) and need not be one of the arguments (refuted).", "quantifier": "all argument lists of length >= 2", "why_tests_cant": "Unbounded argument lists.", "anchors": ["src/main/java/com/github/sidhant92/boolparser/function/arithmetic/MinFunction.java", "src/main/java/com/github/sidhant92/boolparser/function/arithmetic/MaxFunction.java", "src/main/java/com/github/sidhant92/boolparser/util/ValueUtils.java castDecimal"]}
{"id": "C22", "title": "SUM adds its arguments", "statement": "SUM over two or more numbers is the exact sum for decimals (unless integral and outside 32 bits) and for whole numbers whenever the exact sum's magnitude is at most 2^53; beyond that it is the double nearest to the sum, reduced to 64 bits first.", "quantifier": "all argument lists of length >= 2", "why_tests_cant": "Unbounded argument lists.", "anchors": ["src/main/java/com/github/sidhant92/boolparser/function/arithmetic/SumFunction.java"]}
{"id": "C23", "title": "AVG/MEAN is the arithmetic mean", "statement": "AVG and MEAN agree on every input. With a decimal among the arguments the result is the mean truncated to three decimals; with whole numbers only, the result is the exact mean if it has at most two decimals and the evaluation fails otherwise (so AVG is not total).", "quantifier": "all argument lists of length >= 2", "why_tests_cant": "Unbounded lists; failure condition is number-theoretic.", "anchors": ["src/main/java/com/github/sidhant92/boolparser/function/arithmetic/AvgFunction.java", "src/main/java/com/github/sidhant92/boolparser/function/arithmetic/MeanFunction.java"]}
{"id": "C24", "title": "MEDIAN is the middle order statistic", "statement": "MEDIAN of an odd number of arguments is the argument with as many arguments <= as >= on either side; for an even number it is the mean of the two middle ones truncated to two decimals; it does not depend on the argument order.", "quantifier": "all argument lists of length >= 2 and all their permutations", "why_tests_cant": "All permutations of unbounded lists.", "anchors": ["src/main/java/com/github/sidhant92/boolparser/function/arithmetic/MedianFunction.java"]}
{"id": "C25", "title": "MODE returns a most frequent argument", "statement": "MODE returns an argument whose number of occurrences (same type and value) is maximal; among several, the one whose final count is reached first.", "quantifier": "all argument lists of length >= 2", "why_tests_cant": "Unbounded lists.", "anchors": ["src/main/java/com/github/sidhant92/boolparser/function/arithmetic/ModeFunction.java"]}
{"id": "C26", "title": "LEN", "statement": "LEN of one text argument is its length in UTF-16 units; LEN of a list with two or more members is the number of members. The expected `LEN(list) = number of members` fails for the empty list (evaluation fails) and for a one-element list holding text (the text's length is returned).", "quantifier": "all strings and lists", "why_tests_cant": "All list lengths including 0 and 1.", "anchors": ["src/main/java/com/github/sidhant92/boolparser/function/arithmetic/LenFunction.java", "src/main/java/com/github/sidhant92/boolparser/function/FunctionEvaluatorService.java"]}
{"id": "C27", "title": "INT truncates toward zero", "statement": "INT of a decimal whose truncation fits in 32 bits is that truncation; INT of an integer is itself; outside 32 bits the result wraps.", "quantifier": "all numeric values", "why_tests_cant": "Arbitrary precision.", "anchors": ["src/main/java/com/github/sidhant92/boolparser/function/arithmetic/IntFunction.java"]}
{"id": "C28", "title": "DAYS_ELAPSED counts calendar days", "statement": "DAYS_ELAPSED(d) is the signed number of days from d to the current date: 0 for today, +1 for each day earlier, and is consistent across month, year and leap-year boundaries; applying it to text that is a valid calendar date gives the same number as to the date value.", "quantifier": "all proleptic Gregorian dates and all current dates", "why_tests_cant": "All pairs of dates.", "anchors": ["src/main/java/com/github/sidhant92/boolparser/function/arithmetic/DaysElapsedFunction.java"]}
{"id": "C29", "title": "Operators reject operand types they do not support", "statement": "An arithmetic operator or function applied to an operand of a type outside its documented list fails with the invalid-type failure and never returns a value.", "quantifier": "all operators, functions and operand values", "why_tests_cant": "All values.", "anchors": ["src/main/java/com/github/sidhant92/boolparser/operator/OperatorService.java evaluateArithmeticOperator", "src/main/java/com/github/sidhant92/boolparser/operator/OperatorService.java evaluateLogicalOperator", "src/main/java/com/github/sidhant92/boolparser/function/FunctionEvaluatorService.java"]}
{"id": "C30", "title": "Text dates: parsing is exact on valid dates and clamps the day on short months", "statement": "Text in the form yyyy-MM-dd with a valid calendar date is treated as that date; day 29-31 beyond the end of a short month denotes the last day of the month instead of being rejected; month 0/13 or day 0/32 is not a date. Comparing two dates agrees with chronological order.", "quantifier": "all strings / all calendar dates", "why_tests_cant": "All dates and malformed strings.", "anchors": ["src/main/java/com/github/sidhant92/boolparser/util/ValueUtils.java parseDate", "src/main/java/com/github/sidhant92/boolparser/datatype/DateDataType.java"]}
{"id": "C31", "title": "Tokenisation is maximal munch, white space is irrelevant", "statement": "Splitting an expression into tokens never fails and accounts for every character: the token texts, the skipped white space and the dropped unrecognised characters put together give back the expression, in exactly one way; each token is the longest match at its position (the earliest rule on a tie); white space between tokens is irrelevant. That only white space is skipped is refuted: a character no token starts with is silently ignored.", "quantifier": "all strings", "why_tests_cant": "All strings.", "anchors": ["src/main/java/resources/BooleanExpression.g4 lexer rules", "src/main/java/com/github/sidhant92/boolparser/parser/antlr/BooleanExpressionLexer.java"]}
{"id": "C32", "title": "Keywords are recognised in upper or lower case only", "statement": "Every documented keyword is recognised in all-upper and all-lower case; a mixed-case spelling is an ordinary field name (so the documented case-insensitivity is refuted); a longer word that merely starts with a keyword is a field name.", "quantifier": "all words", "why_tests_cant": "All words and spellings.", "anchors": ["src/main/java/resources/BooleanExpression.g4 lexer rules"]}
{"id": "C33", "title": "Quoted strings denote exactly their content", "statement": "A literal quoted with ' or \" denotes exactly the characters between the quotes, for every content that does not contain that quote character, including white space, keywords and operators.", "quantifier": "all contents", "why_tests_cant": "All strings.", "anchors": ["src/main/java/resources/BooleanExpression.g4 WORD", "src/main/java/com/github/sidhant92/boolparser/util/ValueUtils.java convertValue"]}
{"id": "C34", "title": "Number literals denote their value", "statement": "A digit sequence denotes its decimal value: as a 32-bit integer if it fits, as a 64-bit one if it fits there, otherwise parsing fails; d.d denotes the exact decimal.", "quantifier": "all digit sequences", "why_tests_cant": "Unbounded length.", "anchors": ["src/main/java/com/github/sidhant92/boolparser/parser/antlr/BooleanFilterListener.java getDataType", "src/main/java/com/github/sidhant92/boolparser/util/ValueUtils.java convertValue"]}
{"id": "C35", "title": "Operator precedence and associativity are exactly the grammar's", "statement": "The expression tree built from a token sequence is the unique one respecting the grammar's precedence levels (comparators, unary minus, ^, /, *, %, +, -, then AND and OR on one level), all left-associative; parenthesised sub-expressions are kept together.", "quantifier": "all expression trees / token sequences of any size", "why_tests_cant": "Unbounded expressions.", "anchors": ["src/main/java/com/github/sidhant92/boolparser/parser/antlr/BooleanExpressionParser.java expression(int)", "src/main/java/resources/BooleanExpression.g4"]}
{"id": "C36", "title": "Conventional arithmetic and boolean precedence (expected, refuted)", "statement": "a - b + c means (a - b) + c; a OR b AND c means a OR (b AND c); a + 1 > b compares the sum. All three are false: the grammar gives + a higher level than -, one level to AND and OR, and comparators the highest level.", "quantifier": "all operands", "why_tests_cant": "Precedence is a property of all expressions; sample values often coincide.", "anchors": ["src/main/java/resources/BooleanExpression.g4 expression"]}
{"id": "C37", "title": "Parsing a printed condition gives back its meaning (end to end)", "statement": "For every condition built from comparisons, ranges, IN/NOT IN, CONTAINS_*, AND, OR, NOT (with the ordering restriction of C38), writing it in the surface syntax with parentheses and evaluating the text gives exactly the meaning of the condition.", "quantifier": "all conditions of any size and depth, all data maps", "why_tests_cant": "Unbounded expressions.", "anchors": ["src/main/java/com/github/sidhant92/boolparser/parser/antlr/BoolParser.java", "src/main/java/com/github/sidhant92/boolparser/parser/antlr/BooleanFilterListener.java", "src/main/java/com/github/sidhant92/boolparser/application/BooleanExpressionEvaluator.java"]}
{"id": "C38", "title": "AND/OR accept their operands in either order (expected, refuted)", "statement": "If `x AND y` parses then `y AND x` parses. False: a comparison placed after an IN, CONTAINS or range operand swallows it, so f IN (1,2) AND g = 3 always fails while g = 3 AND f IN (1,2) works.", "quantifier": "all fields, literals and list contents", "why_tests_cant": "Ordering of heterogeneous operands.", "anchors": ["src/main/java/com/github/sidhant92/boolparser/parser/antlr/BooleanFilterListener.java mapComparatorExpressionContext", "src/main/java/com/github/sidhant92/boolparser/parser/antlr/BooleanFilterListener.java exitBinaryExpression"]}
{"id": "C39", "title": "Compound elements inside lists keep their meaning (expected, refuted)", "statement": "A list element written as an arithmetic expression contributes the value of that expression. True for one operator between plain operands; false for longer ones: a + b + c inside a function or IN list is evaluated as a + b + c + c.", "quantifier": "all plain operands and operators", "why_tests_cant": "Longer elements are never sampled.", "anchors": ["src/main/java/com/github/sidhant92/boolparser/parser/antlr/BooleanFilterListener.java getArrayElements", "src/main/java/com/github/sidhant92/boolparser/parser/antlr/BooleanFilterListener.java mapArithmeticExpressionContext"]}
{"id": "C40", "title": "A bare boolean field is its own condition (expected, refuted)", "statement": "Evaluating the expression consisting of just a field holding true gives true. False: the result is always false; the bare literal true fails.", "quantifier": "all field names and data maps", "why_tests_cant": "All fields.", "anchors": ["src/main/java/com/github/sidhant92/boolparser/parser/antlr/BooleanFilterListener.java exitParse", "src/main/java/com/github/sidhant92/boolparser/application/BooleanExpressionEvaluator.java evaluateToken"]}
{"id": "C41", "title": "Default field", "statement": "With a default field d, an expression whose comparison omits the left operand means the same as the expression with d written there; if every comparison names its field the default is irrelevant.", "quantifier": "all conditions and default fields", "why_tests_cant": "All expressions.", "anchors": ["src/main/java/com/github/sidhant92/boolparser/parser/antlr/BooleanFilterListener.java mapTypesExpressionContextField", "src/main/java/com/github/sidhant92/boolparser/application/BooleanExpressionEvaluator.java evaluate"]}
{"id": "C42", "title": "The caching parser is transparent", "statement": "For every history of calls and every eviction schedule the caching parser returns what the plain parser returns, provided no two different (expression, default field) pairs of the history share expression + '_' + default field; in particular whenever the default field is the same in all calls. Without the proviso it is refuted.", "quantifier": "all call histories, all eviction schedules, all cache sizes", "why_tests_cant": "Histories and evictions are unbounded and nondeterministic.", "anchors": ["src/main/java/com/github/sidhant92/boolparser/parser/antlr/CachedBoolParser.java getNode"]}
{"id": "C43", "title": "Failures are never cached", "statement": "A call that fails leaves the cache as it was and the same call made again fails again; a successful parse is computed once until evicted.", "quantifier": "all histories", "why_tests_cant": "All histories.", "anchors": ["src/main/java/com/github/sidhant92/boolparser/parser/antlr/CachedBoolParser.java getNode"]}
{"id": "C44", "title": "No well-typed arithmetic is silently dropped: result types", "statement": "The result of an arithmetic operation is a 32-bit integer, a 64-bit integer, a decimal or (only for + with a textual, version or boolean operand) text; text concatenation returns the concatenation of both printed forms.", "quantifier": "all operand pairs", "why_tests_cant": "All pairs.", "anchors": ["src/main/java/com/github/sidhant92/boolparser/operator/arithmetic/"]}
{"id": "C45", "title": "Unary minus works on every numeric field (expected, refuted)", "statement": "-f is the negated value for every numeric f. False for floating point fields (Double, Float), which fail; true for Integer, Long and BigDecimal except the two minimum integers, which stay negative.", "quantifier": "all numeric values", "why_tests_cant": "All types and values.", "anchors": ["src/main/java/com/github/sidhant92/boolparser/operator/arithmetic/UnaryOperator.java"]}
{"id": "C46", "title": "Concurrent construction never exposes a missing operator", "statement": "While any number of threads construct parsers and evaluators and evaluate expressions in any interleaving, a thread that has finished constructing its evaluator always finds the operator, type and function implementations it needs, and one that has finished constructing its parser the operators.", "quantifier": "all interleavings of any number of threads", "why_tests_cant": "Schedules.", "anchors": ["src/main/java/com/github/sidhant92/boolparser/operator/OperatorFactory.java", "src/main/java/com/github/sidhant92/boolparser/datatype/DataTypeFactory.java", "src/main/java/com/github/sidhant92/boolparser/function/FunctionFactory.java"]}
{"id": "C47", "title": "A registered data type stays in effect (expected, refuted)", "statement": "After DataTypeFactory.register has replaced the implementation of a data type, evaluators constructed later use it. False: constructing any evaluator writes the built-in implementations back, so the registration is lost.", "quantifier": "all histories of registrations and constructions", "why_tests_cant": "Histories.", "anchors": ["src/main/java/com/github/sidhant92/boolparser/datatype/DataTypeFactory.java", "src/main/java/com/github/sidhant92/boolparser/application/ArithmeticExpressionEvaluator.java"]}
{"id": "C48", "title": "Text date-times: exact parsing, 24:00:00, chronological comparison", "statement": "Text in the form yyyy-MM-dd HH:mm:ss is treated as that point in time (24:00:00 is the start of the next day, days beyond a short month are moved to its end) and no other text is; comparing two date-times, as objects or as text, agrees with the elapsed nanoseconds between them; comparing a date with a date-time always fails.", "quantifier": "all strings and all pairs of date-times", "why_tests_cant": "All date-times and malformed strings.", "anchors": ["src/main/java/com/github/sidhant92/boolparser/util/ValueUtils.java parseDateTime", "src/main/java/com/github/sidhant92/boolparser/datatype/DateTimeDataType.java", "src/main/java/com/github/sidhant92/boolparser/operator/comparison"]}
{"id": "C49", "title": "Parsing ends on every text, with a tree or a known failure", "statement": "For every text and every default field, parsing ends and yields a tree or fails with one of: invalid expression, NumberFormatException, NullPointerException, ClassCastException, EmptyStackException; no other exception and no endless loop, whatever the text.", "quantifier": "all strings, including malformed ones, and all default fields", "why_tests_cant": "All texts: error recovery skips and invents tokens, which a few malformed samples cannot cover.", "anchors": ["src/main/java/com/github/sidhant92/boolparser/parser/antlr/BoolParser.java", "src/main/java/com/github/sidhant92/boolparser/parser/antlr/BooleanExpressionParser.java", "src/main/java/com/github/sidhant92/boolparser/parser/antlr/BooleanFilterListener.java"]}
{"id": "C50", "title": "A malformed expression is rejected (expected, refuted)", "statement": "A text that is not a sentence of the grammar is reported as invalid. False: anything that does not begin with an operator may follow a complete expression that ends in a literal or a closing parenthesis and is ignored; missing or extra parentheses around such an expression are ignored; the list of IN or CONTAINS need not be closed at the end of the text. An unclosed function call is rejected.", "quantifier": "all well-formed expressions and all continuations, all numbers of parentheses", "why_tests_cant": "All texts; a test of a few malformed texts sees only some of the recovery's behaviour.", "anchors": ["src/main/java/com/github/sidhant92/boolparser/parser/antlr/BoolParser.java", "src/main/java/com/github/sidhant92/boolparser/parser/antlr/BooleanExpressionParser.java"]}
{"id": "C51", "title": "A text depends only on the fields it names", "statement": "Evaluating any text, well-formed or not, gives the same result or failure on two data maps that agree on the fields named in the text, on the default field and on the literals of the text used as conditions.", "quantifier": "all texts, data maps, default fields", "why_tests_cant": "All texts and all pairs of data maps.", "anchors": ["src/main/java/com/github/sidhant92/boolparser/application/BooleanExpressionEvaluator.java", "src/main/java/com/github/sidhant92/boolparser/application/ArithmeticExpressionEvaluator.java", "src/main/java/com/github/sidhant92/boolparser/parser/antlr/BooleanFilterListener.java"]}
{"id": "C52", "title": "The generated lexer recognises exactly the grammar's tokens", "statement": "The automaton shipped in serialised form in the generated lexer, run on the code points of a text as the ANTLR runtime does, never fails and finds exactly the tokens that the lexical rules of the grammar and the longest-match rule prescribe, dropping exactly the characters they leave over.", "quantifier": "all strings of UTF-16 code units, including surrogate pairs and lone surrogates", "why_tests_cant": "All texts; the tables are 4117 numbers nobody reads, and only some paths through the automaton are taken by any test.", "anchors": ["src/main/java/com/github/sidhant92/boolparser/parser/antlr/BooleanExpressionLexer.java _serializedATN", "src/main/java/resources/BooleanExpression.g4", "src/main/java/com/github/sidhant92/boolparser/parser/antlr/BoolParser.java"]}
{"id": "C53", "title": "Layout does not matter", "statement": "How much white space separates the words of an expression, and whether there is any where none is needed, changes neither the tree nor any result: white space is needed only between two word characters, between > or < and =, and between four digits and a minus sign. (2020-12-10 without spaces is a date and not a difference.)", "quantifier": "all texts, all ways of laying out their words, all data", "why_tests_cant": "Infinitely many layouts of infinitely many expressions.", "anchors": ["src/main/java/com/github/sidhant92/boolparser/parser/antlr/BooleanExpressionLexer.java", "src/main/java/resources/BooleanExpression.g4"]}
{"id": "C54", "title": "Negative literals", "statement": "A negative number may be written wherever a number may. True on the right of a comparison: x op -y compares with minus y. False elsewhere: in the list of IN, NOT IN, CONTAINS_ANY, CONTAINS_ALL or a function a negative (or parenthesised) element makes the expression fail; a range with a negative lower bound is false for all data; a comparison beginning with a minus sign fails.", "quantifier": "all operands, comparators, lists with a negative element at any position, layouts, data", "why_tests_cant": "All operands and list positions; the tests use positive literals.", "anchors": ["src/main/java/com/github/sidhant92/boolparser/parser/antlr/BooleanFilterListener.java", "src/main/java/com/github/sidhant92/boolparser/parser/antlr/BooleanExpressionParser.java", "src/main/java/com/github/sidhant92/boolparser/operator/arithmetic/UnaryOperator.java"]}
{"id": "C55", "title": "NOT negates the comparison after it (expected, refuted)", "statement": "NOT x op y is the negation of x op y. False: without parentheses it fails for all operands and data.", "quantifier": "all operands, comparators, data", "why_tests_cant": "All operands and data.", "anchors": ["src/main/java/com/github/sidhant92/boolparser/parser/antlr/BooleanFilterListener.java", "src/main/java/com/github/sidhant92/boolparser/parser/antlr/BooleanExpressionParser.java"]}
{"id": "C56", "title": "Each evaluator rejects the other's expressions", "statement": "An arithmetic evaluator rejects every condition (true). A boolean evaluator rejects every arithmetic expression and function call (false: it answers false for all of them, whatever the data).", "quantifier": "all conditions and arithmetic expressions of any size, all layouts and data", "why_tests_cant": "All expressions and data.", "anchors": ["src/main/java/com/github/sidhant92/boolparser/application/BooleanExpressionEvaluator.java evaluateToken", "src/main/java/com/github/sidhant92/boolparser/application/ArithmeticExpressionEvaluator.java evaluateToken"]}
{"id": "C57", "title": "Parentheses around an operand change nothing (expected, refuted)", "statement": "(x) op y, x op (y) and (x) op (y) mean x op y. False for plain operands x, y: comparisons fail as invalid, arithmetic with an EmptyStackException.", "quantifier": "all plain operands, operators, layouts, data", "why_tests_cant": "All operands and operators.", "anchors": ["src/main/java/com/github/sidhant92/boolparser/parser/antlr/BooleanFilterListener.java"]}
{"id": "C58", "title": "A word of digits and dots is a number, a version or an error (expected, refuted)", "statement": "Words such as .5, 5., 1..2 or 12.1.3 are a number, a version or rejected. False: they are looked up as fields, so a version whose first component has two digits cannot be written as a literal.", "quantifier": "all words of digits and dots", "why_tests_cant": "All such words.", "anchors": ["src/main/java/resources/BooleanExpression.g4", "src/main/java/com/github/sidhant92/boolparser/parser/antlr/BooleanExpressionLexer.java", "src/main/java/com/github/sidhant92/boolparser/parser/antlr/BooleanFilterListener.java"]}
{"id": "C59", "title": "Threads may share a caching parser", "statement": "However many threads use one caching parser, and whenever it drops entries, every call returns what a plain parser returns; an expression is never parsed by two threads at once, nor twice as long as its entry is kept; and no call waits for ever.", "quantifier": "all numbers of threads, call sequences, schedules, moments of eviction, and all ways keys can share a lock", "why_tests_cant": "All schedules and evictions; a test runs a handful of interleavings.", "anchors": ["src/main/java/com/github/sidhant92/boolparser/parser/antlr/CachedBoolParser.java getNode", "src/main/java/com/github/sidhant92/boolparser/parser/antlr/BoolParser.java parse"]}
{"id": "C60", "title": "Returned trees belong to the caller", "statement": "Whatever a client does to a tree it was given (trees have setters and mutable lists), later calls return the tree of their text, and no call changes a tree handed out before. True of the plain parser; true of the caching parser while clients only read; false of it otherwise, since it hands out the cached object itself.", "quantifier": "all histories of calls, evictions and modifications of any nodes", "why_tests_cant": "All histories with aliasing; the tests never modify a tree.", "anchors": ["src/main/java/com/github/sidhant92/boolparser/parser/antlr/CachedBoolParser.java getNode", "src/main/java/com/github/sidhant92/boolparser/domain/logical/BooleanNode.java", "src/main/java/com/github/sidhant92/boolparser/domain/arithmetic/ArithmeticNode.java", "src/main/java/com/github/sidhant92/boolparser/domain/logical/InNode.java"]}
{"id": "C61", "title": "Evaluation ends, with a value or a listed exception", "statement": "Evaluating any text on any data, as condition or arithmetic expression, ends with a value or fails with one of fifteen (thirteen) exceptions; the lists are explicit.", "quantifier": "all texts (well-formed or not), default fields and data", "why_tests_cant": "All texts and data.", "anchors": ["src/main/java/com/github/sidhant92/boolparser/application/BooleanExpressionEvaluator.java", "src/main/java/com/github/sidhant92/boolparser/application/ArithmeticExpressionEvaluator.java", "src/main/java/com/github/sidhant92/boolparser/operator/OperatorService.java", "src/main/java/com/github/sidhant92/boolparser/function/FunctionEvaluatorService.java"]}
{"id": "C62", "title": "The shipped parser tables implement the grammar", "statement": "The generated parser, with the automaton serialised in it, accepts exactly the sentences of the grammar among the texts, builds for each the one tree the declared precedences give it, and parsing returns what the listener makes of that tree; the tokens at which it resumes after an error are those the automaton prescribes.", "quantifier": "all texts, default fields and stacks of open constructs", "why_tests_cant": "All texts: the tables are opaque numbers which the tests exercise on some hundred inputs.", "anchors": ["src/main/java/com/github/sidhant92/boolparser/parser/antlr/BooleanExpressionParser.java _serializedATN", "src/main/java/com/github/sidhant92/boolparser/parser/antlr/BooleanExpressionParser.java expression", "src/main/java/com/github/sidhant92/boolparser/parser/antlr/BooleanExpressionParser.java wordlist", "src/main/java/com/github/sidhant92/boolparser/parser/antlr/BooleanExpressionParser.java types", "src/main/java/com/github/sidhant92/boolparser/parser/antlr/BoolParser.java parseExpression"]}
{"id": "C63", "title": "Comparing values of different types", "statement": "For every two non-null values the result of each of = != < <= > >= is determined by a table: the types of the two values give the type they are compared as (for = and != the first of text, date-time, date, decimal, 64-bit, 32-bit, version, boolean that occurs; for the others the number's or version's type if only one is such), and the answer is the comparison of the two values read as that type, or the invalid-type failure if one of them cannot be read so. In particular numbers, booleans, dates and date-times are never compared with each other, not even by = and !=; text denoting 5.5 or 3000000000 cannot be ordered against the whole number 5, although it can against 5.0; NaN and the infinities fail except as text on the right of an equality.", "quantifier": "all pairs of non-null values of all types and all six operators", "why_tests_cant": "The pairs of types are sixty-four and the values unbounded; tests cover a handful of pairs.", "anchors": ["src/main/java/com/github/sidhant92/boolparser/operator/comparison/NumericOperator.java", "src/main/java/com/github/sidhant92/boolparser/operator/comparison/EqualsOperator.java getComparableDataType", "src/main/java/com/github/sidhant92/boolparser/util/ValueUtils.java getDataType", "src/main/java/com/github/sidhant92/boolparser/constant/ContainerDataType.java getValue"]}
{"id": "C64", "title": "Conditions may be refactored", "statement": "Rewriting a condition by the usual laws keeps its result on all data, successes and failures alike: pushing NOT inwards or outwards (double negation, De Morgan, replacing NOT (a < b) by a >= b ...), regrouping, dropping repeated or absorbed parts, distributing from the left, dropping true and false, writing a range (with bounds of one type) as two comparisons, an IN list of literals as a disjunction of equalities, CONTAINS lists of one type as combinations of single-element ones; at any depth and any number of times. It holds for trees and for the texts a user writes, in any layout. Distribution from the right, ranges with bounds of different types, IN lists with fields, x AND false and x OR NOT x do not keep failures.", "quantifier": "all conditions, all sequences of rewriting steps, all data and all layouts of the two texts", "why_tests_cant": "The conditions, the steps and the data are unbounded in number and size.", "anchors": ["src/main/java/com/github/sidhant92/boolparser/application/BooleanExpressionEvaluator.java evaluateToken, evaluateNumericRangeToken, evaluateInToken, evaluateArrayToken, evaluateBooleanNode", "src/main/java/com/github/sidhant92/boolparser/operator/comparison/InOperator.java", "src/main/java/com/github/sidhant92/boolparser/operator/comparison/ContainsAllOperator.java", "src/main/java/com/github/sidhant92/boolparser/operator/comparison/ContainsAnyOperator.java"]}
{"id": "C65", "title": "The order of function arguments is irrelevant", "statement": "Every function except MODE gives the same result (the same failure, the same value, or decimals of the same value) when the same arguments are given in another order, for arguments of all types, members of collections counting as arguments, and for calls written as texts in any layout. For MODE with several most frequent values the order decides.", "quantifier": "all functions but MODE, all lists of non-null arguments and all their permutations", "why_tests_cant": "The number of arguments and of permutations is unbounded, and each function branches on the types present.", "anchors": ["src/main/java/com/github/sidhant92/boolparser/function/arithmetic", "src/main/java/com/github/sidhant92/boolparser/function/FunctionEvaluatorService.java evaluateArithmeticFunction"]}
{"id": "C66", "title": "The tree a text is parsed to", "statement": "Parsing a well-formed expression of the covered forms, of any size and layout, returns exactly the tree it means: the operators, operands and literals with their types and values, and in each comparison the data type of its right operand if that is a literal or a field, otherwise of its left operand. There is exactly one such tree. A text that is one operand is that field, or a literal of type STRING holding the text as written. In the tree of any text at all a comparison with a literal on its right records the type of that literal.", "quantifier": "all texts; all expressions of the covered forms, all layouts, all default fields", "why_tests_cant": "The sizes of expressions are unbounded, and the data type of a comparison does not affect evaluation, so tests that evaluate never see it.", "anchors": ["src/main/java/com/github/sidhant92/boolparser/parser/antlr/BooleanFilterListener.java mapComparatorExpressionContext, getDataType", "src/main/java/com/github/sidhant92/boolparser/domain/logical/ComparisonNode.java", "README.md Node Types Post Parsing"]}
{"id": "C67", "title": "Arithmetic on values of any two types", "statement": "For every two non-null values the result of each of + - * / % ^ is determined by a table. An operator refuses, with the invalid-type failure, every value whose type it does not support (on either side), and NaN and the infinities. + with a text, version or boolean puts the two texts together. Otherwise both are numbers: + - * are exact on decimals; on whole numbers + and * wrap at 64 bits and give the smallest type that holds the result, - wraps at 64 bits if one is a long and at 32 bits if not; / is truncated to three decimals, fails for a zero divisor and for whole results beyond 32 bits; % has the sign of the dividend, is a long if one operand is, and fails for zero; ^ gives what the power function returns, as an integer if it is one of 32 bits, and fails if it returns NaN or an infinity. Negation wraps whole numbers, is exact on decimal objects, fails on floats and doubles with a cast failure and refuses everything else.", "quantifier": "all pairs of non-null values of all types and all operators", "why_tests_cant": "The pairs of types are sixty-four per operator and the values unbounded; tests cover a handful of pairs.", "anchors": ["src/main/java/com/github/sidhant92/boolparser/operator/arithmetic", "src/main/java/com/github/sidhant92/boolparser/application/ArithmeticExpressionEvaluator.java", "src/main/java/com/github/sidhant92/boolparser/operator/OperatorService.java evaluateArithmeticOperator", "src/main/java/com/github/sidhant92/boolparser/util/ValueUtils.java caseNumber"]}
{"id": "C68", "title": "Evaluation while the data and the clock change", "statement": "If another thread changes the caller's map, or midnight passes, during an evaluation, the result is that of an undisturbed evaluation on any map and day having what was read at the moments it was read. An evaluation looks up only fields the expression mentions, in order, each mention at most once, nothing to the right of an AND or OR decided by its left side, and reads the clock at most once per DAYS_ELAPSED. So an expression mentioning one field once (a range, an IN list of literals) is evaluated at a single moment, and one mentioning fields with different first keys is evaluated on a map in which each field has a value it had at some moment during the evaluation. In general it is not: (f >= 1) AND (f <= 5) can hold although it holds at no moment, and DAYS_ELAPSED(f) = DAYS_ELAPSED(f) can be false across midnight.", "quantifier": "all texts, all default fields, all sequences of changes of the map and of the date between accesses", "why_tests_cant": "The interleavings of changes with the accesses of an evaluation are unbounded and cannot be forced by a test.", "anchors": ["src/main/java/com/github/sidhant92/boolparser/application/BooleanExpressionEvaluator.java evaluateToken", "src/main/java/com/github/sidhant92/boolparser/application/ArithmeticExpressionEvaluator.java evaluateToken", "src/main/java/com/github/sidhant92/boolparser/util/ValueUtils.java getValueFromMap", "src/main/java/com/github/sidhant92/boolparser/function/arithmetic/DaysElapsedFunction.java"]}
{"id": "C69", "title": "A value can be written into an expression", "statement": "If a program puts the text of a value (its toString, or a string between quotes) into an expression text, the expression tests against that value. This holds, with any operand and comparison operator before it, for integers, longs, BigDecimals, doubles and floats that are printed without an exponent and (without a point) have a magnitude below 2^63, for booleans, for dates of the years 1 to 9999 and for all strings that do not contain the quote used; non-negative ones may stand wherever an operand may. It fails for the others: larger integers and Long.MIN_VALUE are rejected; BigDecimals printed with an exponent and doubles printed with a negative one make the condition false for every operator and all data; a double printed with another exponent is taken for a field name; of a date-time only the date is read; a string containing the quote is cut there and the rest is ignored unless it begins with an operator.", "quantifier": "all operands, comparison operators, values, data and default fields", "why_tests_cant": "The values and their printed forms are unbounded; a test inserts a few.", "anchors": ["src/main/java/resources/BooleanExpression.g4", "src/main/java/com/github/sidhant92/boolparser/parser/antlr/BooleanFilterListener.java mapTypesExpressionContext, getDataType", "src/main/java/com/github/sidhant92/boolparser/util/ValueUtils.java convertValue, getDataType"]}
{"id": "C70", "title": "Pre-releases are before the release they lead to", "statement": "Text data or versions with a label, such as 1.2.3-SNAPSHOT, 1.0-rc2, 1.2b3 or 2.0.0.RC1, are ordered against version literals by their numeric components, then by the label in the order alpha, beta, milestone, rc (or cr), snapshot, no label (or ga, or final), sp, whatever the case of its letters, then by the number of the label. This holds for <, <=, > and >= on text and for = and != too on version objects, in either order of the operands, and for a condition text with a version literal after any operand and comparison operator.", "quantifier": "all lists of components, labels, label numbers, letter cases, operands, comparison operators and data", "why_tests_cant": "Components, numbers and the pairs of versions are unbounded; a test compares a few.", "anchors": ["src/main/java/com/github/sidhant92/boolparser/datatype/VersionDataType.java", "org.apache.maven.artifact.versioning.ComparableVersion (dependency)", "src/main/java/com/github/sidhant92/boolparser/operator/comparison/NumericOperator.java"]}
{"id": "C71", "title": "What a function call gives, for arguments of any types", "statement": "A call with arguments of any number, types and values (members of lists count as arguments) has exactly this outcome. No argument: an InvalidExpression failure. A number of arguments the function does not take (LEN one or more, INT and DAYS_ELAPSED exactly one, the others two or more): InvalidContainerType. An argument of a type the function does not take (INT and the statistics take numbers, DAYS_ELAPSED dates or texts that are dates, LEN anything), or NaN or an infinity: InvalidDataType. Otherwise the value of C21 to C28, also where 64 bits overflow (the sum wraps around, so AVG may be negative for positive arguments) and for texts that are dates but no ISO dates (InvalidFunctionArgument). If an operand fails the call fails as the first one. The same holds for the text of a call in any layout.", "quantifier": "all functions, operands, argument lists, values, types, data, dates of today and layouts", "why_tests_cant": "The argument lists, their types and their values are unbounded; tests call each function with a few.", "anchors": ["src/main/java/com/github/sidhant92/boolparser/function/FunctionEvaluatorService.java evaluateArithmeticFunction", "src/main/java/com/github/sidhant92/boolparser/function/arithmetic/*.java evaluate, getAllowedContainerTypes, getAllowedDataTypes", "src/main/java/com/github/sidhant92/boolparser/application/ArithmeticExpressionEvaluator.java evaluateArithmeticFunctionToken"]}
{"id": "C72", "title": "The default locale does not matter", "statement": "An expression text means the same whatever the default locale of the Java virtual machine. This holds in every locale but Turkish and Azeri, and there for every text without the lower-case keywords min, median, int, contains_all and contains_any as tokens; which texts are truth values depends on no locale. It fails in a Turkish or Azeri default locale: a sentence of the grammar with the keyword min, median or int cannot be parsed (InvalidExpression if it can be parsed elsewhere), and contains_all and contains_any become an equality test, which fails for all data (InvalidContainerType where there is a result elsewhere). The upper-case spellings work everywhere.", "quantifier": "all texts, default fields, data, and default locales (on the ASCII letters of the keywords)", "why_tests_cant": "The texts are unbounded, and a test suite runs in one locale.", "anchors": ["src/main/java/com/github/sidhant92/boolparser/constant/Operator.java getOperatorFromSymbol", "src/main/java/com/github/sidhant92/boolparser/constant/FunctionType.java getArrayFunctionFromSymbol", "src/main/java/com/github/sidhant92/boolparser/parser/antlr/BooleanFilterListener.java exitArrayExpression, mapArithmeticFunctionExpressionContext", "src/main/java/com/github/sidhant92/boolparser/datatype/BooleanDataType.java"]}
{"id": "C73", "title": "The tree of an expression is as large as its text", "statement": "An expression text of k characters is parsed to a tree of objects bounded by its length, so that parsing and evaluation (which recurses to the depth of the tree) need memory in proportion to the text. For every written expression in any layout the tree has at most as many objects as the text has words, and no text has more words than characters. For texts of any kind only a quadratic bound holds: at most (2k+1)^2 objects for a text of k characters. The linear bound fails: a chain of comparisons such as x = (y + 1) = 1 = 1 = 1 is accepted, and each further link puts another copy of the whole chain on top of the tree; the depth of the tree for k links is (k^2 + 3k + 6) / 2, beyond every multiple of the length of the text.", "quantifier": "all texts, default fields, written expressions and layouts; all lengths of chain", "why_tests_cant": "The bound is about all texts and the growth shows only for texts of increasing length.", "anchors": ["src/main/java/com/github/sidhant92/boolparser/parser/antlr/BooleanFilterListener.java mapComparatorExpressionContext, exitComparatorExpression, mapArithmeticExpressionContext", "src/main/java/com/github/sidhant92/boolparser/parser/antlr/BoolParser.java parseExpression", "src/main/java/com/github/sidhant92/boolparser/domain/*.java"]}
{"id": "C74", "title": "The outcome of a list or range test on values of any types", "statement": "f IN (...) asks of one member after the other whether the field equals it, as C63 says, until one does (true) or a question fails; the end of the list is false. A null that is reached is a NullPointerException, members of unrelated types InvalidDataType, and a field holding NaN or an infinity is refused. CONTAINS_ALL and CONTAINS_ANY refuse elements of several types (HeterogeneousArrayException), then a field that holds no collection (InvalidDataType), then a set, any other collection and an array (ClassCastException); for a list they ask whether the elements one after the other print as one of its members, again until the answer is known, and a null that is reached is a NullPointerException. A range makes both comparisons, the second one even if the first is false. A missing field is reported first, then the first element that fails.", "quantifier": "all fields, elements (expressions and conditions), members, collections, bounds, types and data", "why_tests_cant": "The lists, the types of their members and the positions of nulls are unbounded.", "anchors": ["src/main/java/com/github/sidhant92/boolparser/operator/comparison/InOperator.java evaluate", "src/main/java/com/github/sidhant92/boolparser/operator/comparison/ContainsAllOperator.java evaluate", "src/main/java/com/github/sidhant92/boolparser/operator/comparison/ContainsAnyOperator.java evaluate", "src/main/java/com/github/sidhant92/boolparser/application/BooleanExpressionEvaluator.java evaluateInToken, evaluateArrayToken, evaluateNumericRangeToken, resolveArrayElements", "src/main/java/com/github/sidhant92/boolparser/util/ValueUtils.java mapToEvaluatedNodes", "src/main/java/com/github/sidhant92/boolparser/constant/ContainerDataType.java isValid"]}
{"id": "C75", "title": "How many decimals a result has and how it is printed", "statement": "With a decimal among the operands a sum and a difference have the larger number of decimals of the two operands and a product has the sum of them; negation keeps the number. A quotient that is no integer has three decimals, superfluous zeros included; a power has no superfluous zeros. MIN and MAX return the first argument with the extreme value with the decimals it came with; SUM has the largest number of decimals among the arguments; AVG and MEAN have three, or two if all arguments are whole; MEDIAN has two for an even number of arguments and otherwise those of the middle one, equal values keeping their order; MODE returns an argument as it is. A decimal is printed in full with exactly its decimals if it has at most six of them or is at least a millionth, otherwise with an exponent. So a text that denotes a result is equal to it only if it is its printed form: 0.25 as a text is not equal to (1/4), which prints 0.250.", "quantifier": "all operands, arguments and their numbers of decimals, all texts", "why_tests_cant": "The numbers of decimals are unbounded and depend on the whole expression; the printed form decides concatenations and equality with texts.", "anchors": ["src/main/java/com/github/sidhant92/boolparser/operator/arithmetic/AddOperator.java evaluate", "src/main/java/com/github/sidhant92/boolparser/operator/arithmetic/SubtractOperator.java evaluate", "src/main/java/com/github/sidhant92/boolparser/operator/arithmetic/MultiplyOperator.java evaluate", "src/main/java/com/github/sidhant92/boolparser/operator/arithmetic/DivideOperator.java evaluate", "src/main/java/com/github/sidhant92/boolparser/operator/arithmetic/ExponentOperator.java evaluate", "src/main/java/com/github/sidhant92/boolparser/operator/arithmetic/UnaryOperator.java evaluate", "src/main/java/com/github/sidhant92/boolparser/function/arithmetic/ (all list functions)", "src/main/java/com/github/sidhant92/boolparser/util/ValueUtils.java castDecimal", "src/main/java/com/github/sidhant92/boolparser/datatype/StringDataType.java getValue"]}
{"id": "C76", "title": "Every operator and every function has exactly one outcome", "statement": "For any two values, nulls, NaN and the infinities included, the rules for an arithmetic operator (types it takes, text concatenation, exact or wrapped result, number of decimals, which failure) allow exactly one outcome, and that is the one computed; the same holds for a negation and for a call of a function with any arguments. Nothing about a result, not even the number of decimals or the integer type it comes in, is left open by the rules.", "quantifier": "all operators, functions, operands, arguments, data and values a Java program can put into the data", "why_tests_cant": "The values, the number of arguments and the sizes of the numbers are unbounded; a test compares a result with one expectation but cannot tell whether the rules decide every case.", "anchors": ["src/main/java/com/github/sidhant92/boolparser/operator/OperatorService.java evaluateArithmeticOperator", "src/main/java/com/github/sidhant92/boolparser/operator/arithmetic/ (all operators)", "src/main/java/com/github/sidhant92/boolparser/function/FunctionEvaluatorService.java evaluateArithmeticFunction", "src/main/java/com/github/sidhant92/boolparser/function/arithmetic/ (all functions)", "src/main/java/com/github/sidhant92/boolparser/util/ValueUtils.java castDecimal, castLong"]}
{"id": "C77", "title": "What every expression means, as one set of rules", "statement": "There is one set of rules for the outcome of a whole expression: literals, field look-ups (nested, missing, nameless), operators and functions on values from left to right with the first failure as the outcome, comparisons and null checks, ranges, IN, CONTAINS_ALL and CONTAINS_ANY, NOT, AND and OR with their short-circuits, bare fields and constants as conditions, conditions as operands. For any text that parses, any default field and any data, the evaluator returns exactly the outcome the rules give the parsed tree - value, integer type, decimals or exception - and the rules give exactly one. The tree of any text, well-formed or not, is one the rules speak about; only ranges of malformed texts whose bounds are no numbers are excepted.", "quantifier": "all texts, default fields, data and trees of any size and depth", "why_tests_cant": "Expressions nest without bound and each rule meets each value type; tests sample combinations, the equivalence covers all of them.", "anchors": ["src/main/java/com/github/sidhant92/boolparser/application/BooleanExpressionEvaluator.java evaluate, evaluateToken and all it dispatches to", "src/main/java/com/github/sidhant92/boolparser/application/ArithmeticExpressionEvaluator.java evaluate, evaluateToken and all it dispatches to", "src/main/java/com/github/sidhant92/boolparser/domain/logical/ComparisonNode.java isNullCheck", "src/main/java/com/github/sidhant92/boolparser/parser/antlr/BooleanFilterListener.java (all exit methods)"]}
{"id": "C78", "title": "How many decimals the numbers of an evaluation have", "statement": "If no number in the data has more than B decimals (B at least 1074, which is what a double can have, and at least the length of the text), the value of every part of an expression has at most B decimals for each object of that part's tree. So for texts whose number of words k satisfies B(2k+1)^2 < 2^31 the scale of every decimal that arises is a 32-bit integer, and no evaluation meets the overflow of BigDecimal's scale.", "quantifier": "all texts, data and parts of the parsed tree, of any size", "why_tests_cant": "The decimals of a product add up; how far they can grow depends on the shape of the whole expression, and the error case needs scales no test reaches.", "anchors": ["src/main/java/com/github/sidhant92/boolparser/operator/arithmetic/MultiplyOperator.java evaluate", "src/main/java/com/github/sidhant92/boolparser/operator/arithmetic/ExponentOperator.java evaluate", "src/main/java/com/github/sidhant92/boolparser/function/arithmetic/*.java", "src/main/java/com/github/sidhant92/boolparser/util/ValueUtils.java castDecimal"]}
{"id": "C79", "title": "A text that passes a version bound passes every looser one", "statement": "Compared with dotted numeric versions, every text has a place: at, just before or just after one of them. It is the numbers the text begins with (leading zeros and trailing .0 do not count), and the first label after them decides the side: alpha, beta, milestone, rc, cr, snapshot (in any case; a, b, m in front of a digit) put it before, sp, any other word and a dash with a positive number put it after, whatever follows; so v1.2.3 is just after 0 and below 0.0.1. Hence >, >=, <, <= against version literals never contradict each other: whatever the data hold, what passes a bound passes every looser one. Among versions with labels this fails: 1.0.rc1 < 1.0 < 1.0-1 < 1.0.rc1.", "quantifier": "all texts, version literals, operands, comparison operators and data", "why_tests_cant": "The texts and the pairs of bounds are unbounded; a test tries a few.", "anchors": ["src/main/java/com/github/sidhant92/boolparser/datatype/VersionDataType.java", "org.apache.maven.artifact.versioning.ComparableVersion (dependency)", "src/main/java/com/github/sidhant92/boolparser/operator/comparison/NumericOperator.java"]}
{"id": "C80", "title": "Field names are only names", "statement": "The outcome depends on a field's name only through what the name leads to in the data: if every field name of a well-formed text is replaced by another name (each occurrence as one likes) and the data are changed so that each new name leads to what the old one led to, or to nothing if the old one did, evaluation gives the same result or the same failure, for conditions and for arithmetic, with or without a default field. In particular the whole data can be moved under a key by writing the key and a dot before every name. Exceptions: the word null (in any case) must stay or stay away, and a literal other than true or false standing alone as a condition or alone under NOT is itself taken for a name.", "quantifier": "all well-formed texts, data, default fields and renamings", "why_tests_cant": "A test renames the fields of one expression; that no part of the evaluator ever looks at the characters of a name otherwise is about all of them.", "anchors": ["src/main/java/com/github/sidhant92/boolparser/parser/antlr/BooleanFilterListener.java (all exit methods)", "src/main/java/com/github/sidhant92/boolparser/application/BooleanExpressionEvaluator.java getValue, evaluateUnaryToken", "src/main/java/com/github/sidhant92/boolparser/util/ValueUtils.java getValueFromMap", "src/main/java/com/github/sidhant92/boolparser/domain/FieldNode.java isNull"]}
{"id": "C81", "title": "What the message of a failure says", "statement": "A failure raised by the library itself always carries a message, and the message is about the expression at hand: the key in 'Data not found for the key ...' is a field the expression mentions, the data do not have it, and it is the last one that was looked up; the operator or function in a message occurs in the expression and refuses what the message says it refuses. The message of every refused comparison, operation, negation and call is a function of the operator or function and of the operands' values and types, and those are exactly the refusals. Exceptions: an arithmetic operator reports a wrong right operand as the left one (so l - r and r - l give the same message), shows the type instead of the value of a right operand that is NaN or infinite, and a field missing on the right of a comparison is not named (NoSuchElementException).", "quantifier": "all trees (hence all texts that parse), data, operands, operators, functions and arguments", "why_tests_cant": "A test looks at the message of one failure; that no message ever names a wrong field or operator is about all expressions and data.", "anchors": ["src/main/java/com/github/sidhant92/boolparser/operator/OperatorService.java evaluateLogicalOperator, evaluateArithmeticOperator", "src/main/java/com/github/sidhant92/boolparser/function/FunctionEvaluatorService.java evaluateArithmeticFunction", "src/main/java/com/github/sidhant92/boolparser/exception/*.java", "src/main/java/com/github/sidhant92/boolparser/application/BooleanExpressionEvaluator.java", "src/main/java/com/github/sidhant92/boolparser/application/ArithmeticExpressionEvaluator.java", "src/main/java/com/github/sidhant92/boolparser/operator/comparison/NumericOperator.java", "src/main/java/com/github/sidhant92/boolparser/constant/ContainerDataType.java getValue"]}
{"id": "C82", "title": "Maps of any kind, and null in place of the map or the text", "statement": "The data may be any implementation of Map, with nested maps of any implementation: the outcome depends on it only through what get answers for the first key of each name the expression mentions (and, for dotted names, the nested maps' get for the further keys). If get throws, evaluation fails with that exception or has the outcome it would have if get did not throw; it never turns it into an answer - except that a ClassCastException of a nested map counts as a missing field. With null in place of the map the outcome is a failure with NullPointerException, or the one outcome the expression has on every map. With null in place of the text the outcome is a failure with NullPointerException; a caching parser may however answer null with the tree of the text 'null' if it holds that, and calls for null never change the answers to other calls.", "quantifier": "all texts and trees, all map objects (functions from keys to values, nothing or an exception, nested to any depth), all histories of calls and evictions", "why_tests_cant": "The behaviour of a user's map object is an arbitrary function; tests use HashMaps.", "anchors": ["src/main/java/com/github/sidhant92/boolparser/util/ValueUtils.java getValueFromMap", "src/main/java/com/github/sidhant92/boolparser/application/BooleanExpressionEvaluator.java evaluate", "src/main/java/com/github/sidhant92/boolparser/application/ArithmeticExpressionEvaluator.java evaluate", "src/main/java/com/github/sidhant92/boolparser/parser/antlr/BoolParser.java parseExpression", "src/main/java/com/github/sidhant92/boolparser/parser/antlr/CachedBoolParser.java getNode"]}
{"id": "C83", "title": "Values grow no faster than the expression", "statement": "Let B be at least 1074, at least the length of the text, and a bound on the data: no number in them exceeds 10^B or has more than B decimals, nothing prints to more than B characters and no list has more than B members. Then the value of every part of the expression is at most 10^B for each object of that part's tree, prints to at most 6B characters for each object, and a decimal has at most 2B digits for each object. So neither products, nor sums over lists, nor division by tiny numbers, nor putting texts together make values grow faster than linearly (in digits or characters) with the expression, and an untrusted expression of k words cannot make the evaluator build a value of more than 6B(2k+1)^2 characters.", "quantifier": "all texts, data, bounds and parts of the parsed tree, of any size", "why_tests_cant": "The bound is about every nesting of operators and calls; a test sees single expressions.", "anchors": ["src/main/java/com/github/sidhant92/boolparser/operator/arithmetic/*.java evaluate", "src/main/java/com/github/sidhant92/boolparser/function/arithmetic/*.java", "src/main/java/com/github/sidhant92/boolparser/util/ValueUtils.java", "src/main/java/com/github/sidhant92/boolparser/application/ArithmeticExpressionEvaluator.java evaluate"]}
{"id": "C84", "title": "Every condition can be written down", "statement": "Every condition built from comparisons with a field or literal on at least one side (and an arithmetic expression or a condition of any depth on the other), ranges, IN, CONTAINS_ALL and CONTAINS_ANY tests, with AND, OR and NOT in any order and depth, has a text that evaluates to exactly its meaning for all data and whatever the default field; so has every arithmetic expression over fields, literals, calls and operators of any depth. A membership test that would swallow a following comparison (C38) is written negated twice, which protects it. No such text is found by putting parentheses around both sides of a comparison: comparing two parenthesised compound sides always fails.", "quantifier": "all conditions and arithmetic expressions of any size and depth, all data and default fields", "why_tests_cant": "The conditions are unbounded in depth and order; a test writes down single ones.", "anchors": ["src/main/java/com/github/sidhant92/boolparser/parser/antlr/BooleanFilterListener.java (all exit methods)", "src/main/java/com/github/sidhant92/boolparser/parser/antlr/BoolParser.java parseExpression", "src/main/java/resources/BooleanExpression.g4", "src/main/java/com/github/sidhant92/boolparser/application/BooleanExpressionEvaluator.java evaluate"]}
{"id": "C85", "title": "Comparing two function calls", "statement": "A comparison of two function calls (any two functions, any arguments, any comparison operator) alone compares the values of the calls, and so it does as the first of two conditions joined by AND or OR. As the second one it does not, with or without parentheses: with AND the whole is false for all data, with OR the first condition is silently ignored.", "quantifier": "all functions, argument lists, comparison operators, other conditions, data and default fields", "why_tests_cant": "The functions, arguments and other conditions range over unboundedly many texts.", "anchors": ["src/main/java/com/github/sidhant92/boolparser/parser/antlr/BooleanFilterListener.java mapComparatorExpressionContext, exitBinaryExpression, exitArithmeticFunctionExpression"]}
{"id": "C86", "title": "Which part of a rejected text the message quotes", "statement": "When a text that follows the grammar is nevertheless rejected, the InvalidExpressionException's message is one of three, and quotes the words (without white space) of an expression that really occurs in the text: an AND or OR that has not got two conditions, an arithmetic operator with compound sides that has not got two values, or an expression that may not be a side of a comparison or a list element. The complaints about a missing field, about NOT and about the text as a whole cannot occur for such texts. From text to result exactly the library's own exceptions carry a message of the library. The third message speaks of an array also where there is none, as in (a + 1) = (b - 1).", "quantifier": "all texts that follow the grammar, default fields and data", "why_tests_cant": "Where a rejection strikes depends on the whole text; a test reads the message of one.", "anchors": ["src/main/java/com/github/sidhant92/boolparser/parser/antlr/BooleanFilterListener.java (all throws)", "src/main/java/com/github/sidhant92/boolparser/parser/antlr/BoolParser.java parseExpression", "src/main/java/com/github/sidhant92/boolparser/exception/InvalidExpressionException.java"]}
{"id": "C87", "title": "Rows of conditions and arithmetic expressions of any length without parentheses", "statement": "Conditions joined by AND and OR without parentheses, however many, are asked strictly from left to right: after each, AND goes on only if the answer so far is true, OR only if it is false, and a failure ends it. With AND only, the whole is true exactly if each condition alone is true; with OR only, it is false exactly if each alone is false. An arithmetic expression of any length is computed by splitting it at the last of its loosest operators (from loosest to tightest: - + % * / ^); this groups every expression in exactly one way, one operator alone from the left, and parentheses around what is grouped anyway change nothing. Both may be nested in parentheses to any depth.", "quantifier": "all numbers and kinds of conditions, operands, operators, nestings, data and default fields", "why_tests_cant": "The rows have no bound on their length; tests join two or three conditions.", "anchors": ["src/main/java/resources/BooleanExpression.g4", "src/main/java/com/github/sidhant92/boolparser/parser/antlr/BooleanFilterListener.java exitBinaryExpression, exitArithmeticExpression", "src/main/java/com/github/sidhant92/boolparser/application/BooleanExpressionEvaluator.java evaluateBooleanNode"]}
{"id": "C88", "title": "A rising number cannot turn a condition that asks for more from true to false", "statement": "In a condition of any size made of >, >=, <, <= between numbers, NOT, AND and OR, give each field a direction: if from one map to another every operand on the favourable side of a comparison (counting NOTs) does not fall and every operand on the other side does not rise, the condition cannot turn from true to false; in the opposite case it cannot turn from false to true. Parts whose fields do not change may be of any kind, as long as both evaluations answer. Fields, literals and sums of whole numbers that fit in 64 bits are such operands; a sum that does not fit is not: (a + 1) > 0 turns false at the largest long.", "quantifier": "all conditions, all pairs of maps, all values of all numeric types", "why_tests_cant": "The two evaluations are related over all pairs of values and all conditions; tests compare single pairs.", "anchors": ["src/main/java/com/github/sidhant92/boolparser/application/BooleanExpressionEvaluator.java evaluateToken, evaluateBooleanNode, evaluateComparisonToken", "src/main/java/com/github/sidhant92/boolparser/operator/comparison/*.java", "src/main/java/com/github/sidhant92/boolparser/operator/arithmetic/AddOperator.java"]}
{"id": "C89", "title": "Collections that grow keep membership conditions true", "statement": "If a collection in the data gains members, CONTAINS_ANY and CONTAINS_ALL about it stay true; CONTAINS_ANY also stays true if the request gains members of its type, CONTAINS_ALL if it loses members; IN cannot turn false if its list gains members, and stays true if they come after the old ones. Under NOT, AND and OR the directions combine as in C88. LEN of two or more members rises with their number, MAX and MIN with the members (MAX also if members are added, MIN if they are taken away), SUM with its members, INT with its argument, sums and differences with a decimal with their sides. A request that gains a member of another type makes a true CONTAINS_ANY fail.", "quantifier": "all collections, requests, lists, fields, spellings, data and default fields", "why_tests_cant": "The two evaluations are related over all collections of any length; tests compare single ones.", "anchors": ["src/main/java/com/github/sidhant92/boolparser/operator/comparison/InOperator.java", "src/main/java/com/github/sidhant92/boolparser/operator/comparison/ContainsAllOperator.java", "src/main/java/com/github/sidhant92/boolparser/operator/comparison/ContainsAnyOperator.java", "src/main/java/com/github/sidhant92/boolparser/function/arithmetic/*.java", "src/main/java/com/github/sidhant92/boolparser/application/BooleanExpressionEvaluator.java evaluateInToken, evaluateArrayToken"]}
{"id": "C90", "title": "The type a number is held in does not matter to comparisons", "statement": "If two maps hold the same numbers in different types (Integer, Long, BigDecimal of any scale, Double, Float), every condition made of comparisons, ranges and IN lists of numbers with NOT, AND and OR answers the same with both. This includes comparisons of literals, of sums, differences and products for whose exact result there is room, of quotients, and of INT. It does not include negation (fails for a Double), remainders (fail for a decimal), comparisons with a text, CONTAINS (both compare the printed forms, 3 and 3.0), and differences of Integers that do not fit in 32 bits.", "quantifier": "all conditions, all pairs of maps, all numbers in all numeric types", "why_tests_cant": "The statement relates all pairs of representations of all numbers; tests use one representation each.", "anchors": ["src/main/java/com/github/sidhant92/boolparser/util/ValueUtils.java", "src/main/java/com/github/sidhant92/boolparser/operator/comparison/*.java", "src/main/java/com/github/sidhant92/boolparser/operator/arithmetic/*.java", "src/main/java/com/github/sidhant92/boolparser/datatype/*.java"]}
{"id": "C91", "title": "A condition on computed elements does not disturb its neighbours (true in first place, refuted later)", "statement": "A condition whose list or arguments are computed, such as INT(a / b) = 3 or c IN (a - 5, 1), means the same in a row of conditions as alone. True if it stands first. False if it stands later: whatever stands before it is lost, so `b = 2 AND INT(a / b) = 3` is false for all data and `b = 2 OR c IN (a - 5, 1)` ignores b = 2; in arithmetic, `MIN(a, b) + INT(a / b)` adds a / b instead of MIN(a, b).", "quantifier": "all functions, lists, operators, texts before it, rows of conditions after it, and data", "why_tests_cant": "The leftover parts depend on the position of the condition in rows of any length; tests use such a condition alone.", "anchors": ["src/main/java/com/github/sidhant92/boolparser/parser/antlr/BooleanFilterListener.java mapComparatorExpressionContext", "src/main/java/com/github/sidhant92/boolparser/parser/antlr/BooleanFilterListener.java exitBinaryExpression", "src/main/java/com/github/sidhant92/boolparser/parser/antlr/BooleanFilterListener.java exitArithmeticExpression"]}
{"id": "C92", "title": "Two computed values can be compared (refuted, with a way around it)", "statement": "A comparison may have a computed value on both sides. False: a text that contains a comparison of two compound sides, one of them in parentheses, such as (a + b) > (c - 1), is rejected, wherever in the text the comparison stands and whatever else the text contains. Written as ((a + b) - (c - 1)) > 0 it is accepted and compares the two numbers exactly, if there is room for the difference (a decimal, or an integer that fits its type).", "quantifier": "all texts, all comparison operators, all arithmetic expressions of any length on both sides, all data", "why_tests_cant": "The rejection is claimed for every text around the comparison, the exactness for all numbers.", "anchors": ["src/main/java/com/github/sidhant92/boolparser/parser/antlr/BooleanFilterListener.java mapComparatorExpressionContext", "src/main/java/com/github/sidhant92/boolparser/parser/antlr/BooleanFilterListener.java mapContextToNode", "src/main/java/com/github/sidhant92/boolparser/operator/arithmetic/SubtractOperator.java"]}
{"id": "C93", "title": "A later date or a newer version cannot turn a condition that asks for later or newer from true to false", "statement": "If from one data map to another every date, date-time or version a condition asks to be later or newer moves forward or stays, and every one it asks to be earlier or older moves back or stays, then the condition cannot turn from true to false; NOT turns the direction, AND and OR keep it, and comparisons of numbers and collections follow the trends of C88. It does not matter whether dates are held as date objects or as text, and versions may be text if the other side is a version. False for two versions that are both text (1.9.1 to 1.10.1 makes app > least false) and for two-part versions written in the condition (app >= 1.5 is a comparison of decimals).", "quantifier": "all conditions of any size, all pairs of data maps, all calendar dates, all times to the nanosecond, all dotted versions of any length", "why_tests_cant": "Monotonicity relates two evaluations for all pairs of data maps and all conditions.", "anchors": ["src/main/java/com/github/sidhant92/boolparser/operator/comparison/GreaterThanOperator.java", "src/main/java/com/github/sidhant92/boolparser/operator/comparison/LessThanEqualOperator.java", "src/main/java/com/github/sidhant92/boolparser/datatype/DateDataType.java", "src/main/java/com/github/sidhant92/boolparser/datatype/VersionDataType.java", "src/main/java/com/github/sidhant92/boolparser/datatype/StringDataType.java"]}
{"id": "C94", "title": "Numbers that reach the data as text answer like numbers (with limits)", "statement": "If some numbers of the data are held as text instead, a condition answers the same, failures included, as long as every such text is only compared with numbers: by < <= > >= and TO if it denotes a whole number of the right size or the other side is a decimal, by = != and IN if it is the plain numeral of a whole number and the other side is an Integer or a Long. False otherwise: x + 1 joins the text 5 to 51, x > 5 fails for the text 5.5, x = 5.0 is false for the text 5, and x > y with two texts is decided letter by letter.", "quantifier": "all conditions of any size, all pairs of data maps, all numbers and all texts that denote them (signs, points, exponents)", "why_tests_cant": "The claim relates two evaluations for all conditions and all ways to write a number.", "anchors": ["src/main/java/com/github/sidhant92/boolparser/operator/comparison/NumericOperator.java", "src/main/java/com/github/sidhant92/boolparser/operator/comparison/EqualsOperator.java", "src/main/java/com/github/sidhant92/boolparser/datatype/IntegerDataType.java getValue", "src/main/java/com/github/sidhant92/boolparser/datatype/DecimalDataType.java getValue", "src/main/java/com/github/sidhant92/boolparser/operator/arithmetic/AddOperator.java"]}
{"id": "C95", "title": "A date or date-time held as text answers like the date object (with limits)", "statement": "If some dates or date-times of the data are held as text instead of as objects, or the other way round, every condition that only compares days and moments with one another (= != < <= > >= and IN, joined by NOT, AND, OR) answers the same, failures included; the text may be any that the library reads as that day or moment, and the rest of the condition may be as in C90 and C94. DAYS_ELAPSED gives the same number for a date and its text yyyy-MM-dd. False beyond that: CONTAINS_ANY tells a date-time from its text, and DAYS_ELAPSED fails for 2024-02-30, which comparisons read as 2024-02-29.", "quantifier": "all conditions of any size, all pairs of data maps, all days and moments and all texts that denote them", "why_tests_cant": "The claim relates two evaluations for all conditions, all dates and all ways to write them.", "anchors": ["src/main/java/com/github/sidhant92/boolparser/operator/comparison/NumericOperator.java", "src/main/java/com/github/sidhant92/boolparser/operator/comparison/EqualsOperator.java", "src/main/java/com/github/sidhant92/boolparser/datatype/DateDataType.java", "src/main/java/com/github/sidhant92/boolparser/datatype/DateTimeDataType.java", "src/main/java/com/github/sidhant92/boolparser/function/arithmetic/DaysElapsedFunction.java"]}
{"id": "C96", "title": "The order in which collections hand out their members does not matter (with limits)", "statement": "If the collections of the data (a HashSet promises no order) hand out the same members in another order, a condition built by NOT, AND, OR from IN, CONTAINS_ALL and CONTAINS_ANY and from comparisons of function calls with numbers never gives the opposite answer; for IN and CONTAINS repeated members do not matter either. If the tested value can be compared with every member, IN has exactly the same outcome; without nulls so have CONTAINS_ALL and CONTAINS_ANY, and every function but MODE gives the same value. False beyond that: the order decides whether IN finds its value before it fails on a member of another type, MODE of a set depends on the order, and a set compared with = is compared as the text it prints to.", "quantifier": "all conditions of any size, all pairs of data maps with reordered collections of any length and any values", "why_tests_cant": "The claim quantifies over all orders, all collections and all conditions; a test sees the one order its HashSet happens to have.", "anchors": ["src/main/java/com/github/sidhant92/boolparser/operator/comparison/InOperator.java evaluate", "src/main/java/com/github/sidhant92/boolparser/operator/comparison/ContainsAllOperator.java evaluate", "src/main/java/com/github/sidhant92/boolparser/operator/comparison/ContainsAnyOperator.java evaluate", "src/main/java/com/github/sidhant92/boolparser/util/ValueUtils.java mapToEvaluatedNodes", "src/main/java/com/github/sidhant92/boolparser/function/arithmetic/ModeFunction.java"]}
{"id": "C97", "title": "Exchanged operands ask the same, and equal values can replace each other (with limits)", "statement": "For every two values of any types, l op r and r op' l come to the same, answer or refusal, where op' is op read from the right; every value equals itself, and is at most and at least itself unless it is a boolean, for which order is refused. Of two values that are equal, either may replace the other on any side of = != < <= > >=, and equality is transitive, as long as all the values are numbers, booleans, dates and date-times, or all are texts, or all are versions made of numbers. Across these families it fails: the text 5.0 equals the decimal 5.0, which equals the integer 5, which does not equal the text; versions 1.50 and 1.5 both equal the decimal 1.5 and not each other.", "quantifier": "all pairs and triples of values of all types, all six comparison operators", "why_tests_cant": "Laws of an equality relate every pair and triple of values; tests see single pairs.", "anchors": ["src/main/java/com/github/sidhant92/boolparser/operator/comparison/EqualsOperator.java", "src/main/java/com/github/sidhant92/boolparser/operator/comparison/GreaterThanOperator.java", "src/main/java/com/github/sidhant92/boolparser/operator/comparison/LessThanEqualOperator.java", "src/main/java/com/github/sidhant92/boolparser/util/ValueUtils.java", "src/main/java/com/github/sidhant92/boolparser/datatype/StringDataType.java", "src/main/java/com/github/sidhant92/boolparser/datatype/DecimalDataType.java"]}
{"id": "C98", "title": "Every value equals the text it prints as (with limits)", "statement": "Every value of every type (numbers, booleans, dates and date-times of any year, versions, texts, collections, maps, other objects; not NaN or an infinity) equals its own toString text, from both sides, and unless it is a boolean it is at most and at least that text. The text of a number denotes that number, also in scientific notation, and ordered against a decimal it answers exactly like the number. Limits: ordered against a whole number, the text of a number with a fraction is refused; a value need not equal the text of another value it equals (5 equals 5.0 but not the text 5.0).", "quantifier": "all values of all types, all scales and digit counts a BigDecimal can have, all dates", "why_tests_cant": "The claim covers every value and its printed form; tests compare single literals.", "anchors": ["src/main/java/com/github/sidhant92/boolparser/operator/comparison/EqualsOperator.java", "src/main/java/com/github/sidhant92/boolparser/operator/comparison/NumericOperator.java", "src/main/java/com/github/sidhant92/boolparser/util/ValueUtils.java", "src/main/java/com/github/sidhant92/boolparser/datatype/DecimalDataType.java getValue", "src/main/java/com/github/sidhant92/boolparser/datatype/DateDataType.java", "src/main/java/com/github/sidhant92/boolparser/datatype/StringDataType.java"]}
