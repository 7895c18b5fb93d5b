(** Lists with elements the library has no reading for. *)
From Verif Require Import Base Values Ast Lexer Grammar Recover Listener Api SpecGrammar SpecRecover SpecQuote ParseFuel ParseFacts RecoverFacts AnyText SpecOddList.

Lemma odd_fails dflt i s : odd_element i -> map_context dflt i s = Err InvalidExpression.
Proof. destruct i; intros H; try contradiction; reflexivity. Qed.

Definition fails {A} (r : res A) : Prop := exists e, r = Err e.
Lemma bind_fails {A B} (r : res A) (k : A -> res B) : (forall a, fails (k a)) -> fails (bind r k).
Proof. intros H. destruct r as [a|e]; [apply H|exists e; reflexivity]. Qed.
Lemma fails_bind {A B} (r : res A) (k : A -> res B) : fails r -> fails (bind r k).
Proof. intros [e ->]. exists e. reflexivity. Qed.

Lemma elements_fail (f : ptree -> list node -> res (node * list node)) items i : In i items -> (forall s, fails (f i s)) -> forall s,
  fails ((fix go (l : list ptree) (s : list node) {struct l} : res (list node * list node) :=
    match l with [] => Ok ([], s) | i :: l' => ns <- f i s ;; rs <- go l' (snd ns) ;; Ok (fst ns :: fst rs, snd rs) end) items s).
Proof.
  intros H F. induction items as [|j items IH]; [contradiction|]. intros s. destruct H as [->|H]; [apply fails_bind, F|].
  apply bind_fails. intros ns. apply fails_bind, IH, H.
Qed.
Lemma map_elements_fail dflt items i : In i items -> (forall s, fails (map_context dflt i s)) -> forall s, fails (map_elements dflt items s).
Proof.
  intros H F. induction items as [|j items IH]; [contradiction|]. intros s. cbn [map_elements]. destruct H as [->|H]; [apply fails_bind, F|].
  apply bind_fails. intros ns. apply fails_bind, IH, H.
Qed.
Lemma items_fail (f : ptree -> lstate -> res lstate) items i : In i items -> (forall s, fails (f i s)) -> forall s,
  fails ((fix go (l : list ptree) (st : lstate) {struct l} : res lstate := match l with [] => Ok st | i :: l' => st' <- f i st ;; go l' st' end) items s).
Proof.
  intros H F. induction items as [|j items IH]; [contradiction|]. intros s. destruct H as [->|H]; [apply fails_bind, F|]. apply bind_fails. intros s'. apply IH, H.
Qed.

Lemma list_fails dflt u items i : list_of u items -> In i items -> odd_element i -> forall st, fails (walk dflt u st).
Proof.
  intros L H O st. assert (F : forall s, fails (map_context dflt i s)) by (intros s; exists InvalidExpression; apply odd_fails, O).
  destruct L as [fn items|f no w items|f o items]; cbn [walk]; apply bind_fails; intros st'.
  - unfold push_context. apply fails_bind. cbn [map_context]. destruct (function_of (kind fn)); [|exists InvalidExpression; reflexivity]. apply fails_bind. apply (elements_fail (map_context dflt) items i H F).
  - unfold push_context. apply fails_bind. cbn [map_context]. apply bind_fails. intros fld. apply fails_bind. apply (elements_fail (map_context dflt) items i H F).
  - unfold exit_array. apply bind_fails. intros fld. apply fails_bind, (map_elements_fail dflt items i H F).
Qed.
Lemma inside_fails dflt u t : inside u t -> (forall st, fails (walk dflt u st)) -> forall st, fails (walk dflt t st).
Proof.
  intros I F. induction I as [|t I IH|no t I IH|t I IH|f i items H I IH|f no w i items H I IH|f o i items H I IH|l o r I IH|l o r I IH|l o r I IH|l o r I IH|l o r I IH|l o r I IH]; intros st; cbn [walk].
  - apply F.
  - apply IH.
  - apply fails_bind, IH.
  - apply fails_bind, IH.
  - apply fails_bind. apply (items_fail (walk dflt) items i H IH).
  - apply fails_bind. apply (items_fail (walk dflt) items i H IH).
  - apply fails_bind. apply (items_fail (walk dflt) items i H IH).
  - apply fails_bind, IH.
  - apply bind_fails. intros st1. apply fails_bind, IH.
  - apply fails_bind, IH.
  - apply bind_fails. intros st1. apply fails_bind, IH.
  - apply fails_bind, IH.
  - apply bind_fails. intros st1. apply fails_bind, IH.
Qed.
Lemma odd_rejected s t u items i dflt : lex s = Ok (yield t) -> reads 0 t eof -> inside u t -> list_of u items -> In i items -> odd_element i ->
  exists e, parse_expression s dflt = Err e.
Proof.
  intros L R I Li H O. rewrite (parse_as _ _ _ dflt L (parse_any_complete t R)). unfold listen. apply fails_bind. apply (inside_fails dflt u t I). apply (list_fails dflt u items i Li H O).
Qed.
