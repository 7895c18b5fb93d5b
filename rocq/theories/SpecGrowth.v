(** How large a result can be. *)
From Coq Require Import QArith Qabs.
From Verif Require Import Base JNum BigDec Dates Values Ops Funcs Ast SpecNum SpecCompare SpecArith SpecScale SpecPath SpecPlaces.
Local Open Scope Z_scope.

(** The absolute value of a number is at most 10^k. *)
Definition magnitude (k : Z) (v : jval) : Prop := forall b, held v b -> (Qabs (dec_value b) <= (10 # 1) ^ k)%Q.
(** The printed form of a value has at most [k] characters. *)
Definition print_length (k : Z) (v : jval) : Prop := Z.of_nat (length (show v)) <= k.
(** Numbers in the data are at most 10^B and have at most [B] decimals; nothing prints to more than [B] characters; no list has more than [B] members. *)
Definition data_size (d : data) (B : Z) : Prop :=
  data_places d B /\
  forall ks v, found d ks v -> magnitude B v /\ print_length B v /\ Z.of_nat (length (members v)) <= B /\ Forall (fun m => magnitude B m /\ print_length B m) (members v).
(** Math.pow returns doubles: m * 2^e with e at least -1074 and an absolute value below 2^1024. *)
Definition finite_doubles (E : env) : Prop :=
  true_doubles E /\
  (forall m n u e, pow_long E m n = DFin u e -> (Qabs (double_value u e) < (2 # 1) ^ 1024)%Q) /\
  forall s t u e, pow_dec E s t = DFin u e -> (Qabs (double_value u e) < (2 # 1) ^ 1024)%Q.
