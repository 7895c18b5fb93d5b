(** The public entry points, strings in, results out. *)
From Verif Require Import Base Values Ops Ast Eval Lexer Grammar Recover Listener.

(** BoolParser.parseExpression, B/parser/antlr/BoolParser.java:19-43: lexer, parser, listener. *)
Definition parse_expression (expr : jstr) (dflt : option jstr) : res node :=
  ts <- lex expr ;; t <- parse_any ts ;; listen dflt t.

(** BooleanExpressionEvaluator.evaluate(expression, data, defaultField),
    B/application/BooleanExpressionEvaluator.java:48-55 *)
Definition evaluate_boolean (E : env) (expr : jstr) (d : data) (dflt : option jstr) : res bool :=
  n <- parse_expression expr dflt ;; bool_eval E d n.

(** ArithmeticExpressionEvaluator.evaluate(expression, data), B/application/ArithmeticExpressionEvaluator.java:41-44 *)
Definition evaluate_arith (E : env) (expr : jstr) (d : data) : res jval :=
  n <- parse_expression expr None ;; arith_eval E d n.
