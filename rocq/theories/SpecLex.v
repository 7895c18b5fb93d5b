(** Specification of the tokens: the lexical rules of src/main/java/resources/BooleanExpression.g4:53,79-132 as regular
    expressions, in the order of the grammar, and maximal munch. *)
From Verif Require Import Base Lexer Ops.

Inductive re :=
| Word (w : jstr)                      (* 'text' *)
| Any (p : jchar -> bool)              (* one character of a class *)
| Cat (a b : re)
| Or (a b : re)
| Star (a : re).
Definition Plus (a : re) : re := Cat a (Star a).
Fixpoint cat (l : list re) : re := match l with [] => Word [] | [a] => a | a :: l' => Cat a (cat l') end.
Fixpoint alt (a : re) (l : list re) : re := match l with [] => a | b :: l' => Or a (alt b l') end.

Inductive matches : re -> jstr -> Prop :=
| m_word w : matches (Word w) w
| m_any p c : p c = true -> matches (Any p) [c]
| m_cat a b s t : matches a s -> matches b t -> matches (Cat a b) (s ++ t)
| m_left a b s : matches a s -> matches (Or a b) s
| m_right a b s : matches b s -> matches (Or a b) s
| m_done a : matches (Star a) []
| m_more a s t : matches a s -> matches (Star a) t -> matches (Star a) (s ++ t).

Definition two (a b : String.string) : re := Or (Word (J a)) (Word (J b)).
Arguments two (_ _)%string_scope.
Definition one (a : String.string) : re := Word (J a).
Arguments one _%string_scope.
Definition digit : re := Any is_digit.
(** '\'' .*? '\'' : the non-greedy loop ends at the first closing quote. *)
Definition quoted (q : jchar) : re := cat [Word [q]; Star (Any (fun c => negb (c =? q)%N)); Word [q]].
Definition date_re : re := cat [digit; digit; digit; digit; one "-"; digit; digit; one "-"; digit; digit].
Definition datetime_re : re :=
  cat [digit; digit; digit; digit; one "-"; digit; digit; one "-"; digit; digit; one " "; digit; digit; one ":"; digit; digit; one ":"; digit; digit].
(** Space, tab, carriage return, form feed, line feed. *)
Definition blank (c : jchar) : bool := existsb (N.eqb c) [32; 13; 9; 12; 10]%N.
Definition letter_or_digit (c : jchar) : bool := is_digit c || is_upper c || is_lower c.
Definition word_char (c : jchar) : bool := letter_or_digit c || (c =? ch "_")%N || (c =? ch ".")%N.

Definition lexicon : list (tkind * re) :=
  [ (T_COMMA, one ",");
    (T_IN, two "IN" "in"); (T_TO, two "TO" "to");
    (T_AND, Or (one "AND") (Or (one "and") (one "&&")));
    (T_OR, Or (one "OR") (Or (one "or") (one "||")));
    (T_NOT, two "NOT" "not"); (T_TRUE, two "TRUE" "true"); (T_FALSE, two "FALSE" "false");
    (T_CONTAINS_ALL, two "CONTAINS_ALL" "contains_all"); (T_CONTAINS_ANY, two "CONTAINS_ANY" "contains_any");
    (T_MIN, two "MIN" "min"); (T_MAX, two "MAX" "max"); (T_AVG, two "AVG" "avg"); (T_SUM, two "SUM" "sum");
    (T_MEAN, two "MEAN" "mean"); (T_MODE, two "MODE" "mode"); (T_MEDIAN, two "MEDIAN" "median");
    (T_LEN, two "LEN" "len"); (T_INT, two "INT" "int"); (T_DAYS_ELAPSED, two "DAYS_ELAPSED" "days_elapsed");
    (T_ADD, one "+"); (T_SUBTRACT, one "-"); (T_MULTIPLY, one "*"); (T_DIVIDE, one "/"); (T_MODULUS, one "%"); (T_EXPONENT, one "^");
    (T_NE, one "!="); (T_GT, one ">"); (T_GE, one ">="); (T_LT, one "<"); (T_LE, one "<="); (T_EQ, one "=");
    (T_LPAREN, one "("); (T_RPAREN, one ")");
    (T_DECIMAL, cat [Plus digit; one "."; Plus digit]);
    (T_APP_VERSION, Cat digit (Plus (Cat (one ".") (Plus digit))));
    (T_INTEGER, Plus digit);
    (T_DATE, date_re);
    (T_DATETIME, datetime_re);
    (T_WS, Plus (Any blank));
    (T_WORD, Or (quoted (ch "'")) (quoted 34%N));
    (T_SQSTR, quoted (ch "'")); (T_DQSTR, quoted 34%N);
    (T_FIELD, Plus (Or (Any letter_or_digit) (Or (one "_") (one "."))));
    (T_ALPHANUMERIC, Any letter_or_digit);
    (T_SQ, quoted (ch "'")); (T_DQ, quoted 34%N) ].

(** [picks s k w]: [w] is the longest non-empty beginning of [s] that some rule matches, and [k] the first such rule. *)
Definition picks (s : jstr) (k : tkind) (w : jstr) : Prop :=
  w <> [] /\ (exists rest, s = w ++ rest) /\
  (exists before r after, lexicon = before ++ (k, r) :: after /\ matches r w /\ forall k' r', In (k', r') before -> ~ matches r' w) /\
  (forall k' r' w' rest, In (k', r') lexicon -> s = w' ++ rest -> matches r' w' -> (length w' <= length w)%nat).

(** Where no rule matches, the longest beginning that could still become a token, and one more character, is dropped. *)
Definition viable (w : jstr) : Prop := exists k r u, In (k, r) lexicon /\ matches r (w ++ u).
Definition high_surrogate (c : jchar) : bool := ((55296 <=? c) && (c <=? 56319))%N.
Definition low_surrogate (c : jchar) : bool := ((56320 <=? c) && (c <=? 57343))%N.
(** A character: one UTF-16 unit, or a surrogate pair. *)
Definition first_character (s : jstr) : jstr :=
  match s with c :: d :: _ => if high_surrogate c && low_surrogate d then [c; d] else [c] | _ => s end.
Definition drops (s w : jstr) : Prop :=
  exists p rest, s = p ++ rest /\ viable p /\ (forall p' rest', s = p' ++ rest' -> viable p' -> (length p' <= length p)%nat) /\
    w = p ++ first_character rest.

(** Splitting a text into pieces. *)
Inductive piece := Token (t : token) | Blank (w : jstr) | Dropped (w : jstr).
Definition piece_text (p : piece) : jstr := match p with Token t => text t | Blank w => w | Dropped w => w end.
Inductive splits : jstr -> list piece -> Prop :=
| split_end : splits [] []
| split_token k w rest ps : picks (w ++ rest) k w -> k <> T_WS -> splits rest ps -> splits (w ++ rest) (Token (Tok k w) :: ps)
| split_blank w rest ps : picks (w ++ rest) T_WS w -> splits rest ps -> splits (w ++ rest) (Blank w :: ps)
| split_drop w rest ps : w ++ rest <> [] -> (forall k w', ~ picks (w ++ rest) k w') -> drops (w ++ rest) w -> splits rest ps -> splits (w ++ rest) (Dropped w :: ps).
Fixpoint tokens_of (ps : list piece) : list token :=
  match ps with [] => [] | Token t :: ps' => t :: tokens_of ps' | _ :: ps' => tokens_of ps' end.

(** A token by itself: its text alone is that token. *)
Definition genuine (t : token) : Prop := picks (text t) (kind t) (text t) /\ kind t <> T_WS.
(** The tokens with white space around them: non-empty between two tokens. *)
Definition blanks (w : jstr) : Prop := Forall (fun c => blank c = true) w.
Inductive spaced : list token -> jstr -> Prop :=
| sp_nil w : blanks w -> spaced [] w
| sp_one w t w' : blanks w -> blanks w' -> spaced [t] (w ++ text t ++ w')
| sp_more w t c s ts : blanks w -> blank c = true -> ts <> [] -> spaced ts s -> spaced (t :: ts) (w ++ text t ++ c :: s).

(** The documented keywords. *)
Definition keywords : list (tkind * jstr * jstr) :=
  [ (T_IN, J "IN", J "in"); (T_TO, J "TO", J "to"); (T_AND, J "AND", J "and"); (T_OR, J "OR", J "or"); (T_NOT, J "NOT", J "not");
    (T_TRUE, J "TRUE", J "true"); (T_FALSE, J "FALSE", J "false");
    (T_CONTAINS_ALL, J "CONTAINS_ALL", J "contains_all"); (T_CONTAINS_ANY, J "CONTAINS_ANY", J "contains_any");
    (T_MIN, J "MIN", J "min"); (T_MAX, J "MAX", J "max"); (T_AVG, J "AVG", J "avg"); (T_SUM, J "SUM", J "sum");
    (T_MEAN, J "MEAN", J "mean"); (T_MODE, J "MODE", J "mode"); (T_MEDIAN, J "MEDIAN", J "median"); (T_LEN, J "LEN", J "len");
    (T_INT, J "INT", J "int"); (T_DAYS_ELAPSED, J "DAYS_ELAPSED", J "days_elapsed") ].

(** A field name: letters, digits, underscores and dots, with at least one letter or underscore, and no keyword. *)
Definition keyword (w : jstr) : Prop := exists k up lo, In (k, up, lo) keywords /\ (w = up \/ w = lo).
Definition field_name (w : jstr) : Prop :=
  Forall (fun c => word_char c = true) w /\ Exists (fun c => is_digit c = false /\ c <> ch ".") w /\ ~ keyword w.

(** The number a digit sequence denotes. *)
Fixpoint natural (ds : jstr) : Z :=
  match ds with [] => 0 | c :: ds' => (Z.of_N c - 48) * 10 ^ Z.of_nat (length ds') + natural ds' end.
Definition digits (ds : jstr) : Prop := ds <> [] /\ Forall (fun c => is_digit c = true) ds.

(** The comparison operators as written. *)
Definition comparators : list (jstr * operator) :=
  [ (J "=", EQUALS); (J "!=", NOT_EQUAL); (J ">", GREATER_THAN); (J ">=", GREATER_THAN_EQUAL);
    (J "<", LESS_THAN); (J "<=", LESS_THAN_EQUAL) ].
