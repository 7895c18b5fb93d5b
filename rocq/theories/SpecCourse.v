(** Specification: how conditions react to dates and date-times that move later and to versions that become newer. *)
From Coq Require Import QArith.
From Verif Require Import Base JNum BigDec Dates Version Values Ops Funcs Ast Eval SpecNum SpecCompare SpecArith SpecDate SpecTrend.
Local Open Scope Z_scope.

(** What is compared: days, date-times or dotted versions. *)
Inductive scale := Days | Moments | Releases.
(** A point on a scale. *)
Inductive point := PDay (a : date) | PMoment (x : datetime) | PRelease (cs : list N).

(** [at_point E d m p]: with [d] the operand [m] is a date, a date-time or a version, held as an object or as text. *)
Definition at_point (E : env) (d : data) (m : node) (p : point) : Prop :=
  exists v, yields E d m v /\ match p with PDay a => denotes_date v a | PMoment x => denotes_datetime v x | PRelease cs => version_like v cs end.
(** The second point is no earlier, or no older, than the first. *)
Definition no_earlier (k : scale) (p p' : point) : Prop :=
  match k, p, p' with
  | Days, PDay a, PDay a' => exists n, days_later n a a' /\ 0 <= n
  | Moments, PMoment x, PMoment x' => exists n, nanos_later n x x' /\ 0 <= n
  | Releases, PRelease cs, PRelease cs' => components_compare cs cs' <> Gt
  | _, _, _ => False
  end.
(** From [d] to [d'] the operand [m] moves forward on the scale, or stays. *)
Definition advances (k : scale) (E : env) (d d' : data) (m : node) : Prop :=
  exists p p', at_point E d m p /\ at_point E d' m p' /\ no_earlier k p p'.
(** Two texts are never compared as versions, so one of the sides has to be a version itself. *)
Definition is_version (E : env) (d : data) (m : node) : Prop := exists s, yields E d m (VVer s).
Definition comparable (k : scale) (E : env) (d : data) (l r : node) : Prop := k = Releases -> is_version E d l \/ is_version E d r.

(** [course E d d' up n]: from [d] to [d'] the condition [n] can only turn from false to true ([up]), or only from true to false:
    comparisons follow what they ask to be later and go against what they ask to be earlier. *)
Inductive course (E : env) (d d' : data) : bool -> node -> Prop :=
| course_trend up n : trend E d d' up n -> course E d d' up n
| course_more_up k l r op t : op = GREATER_THAN \/ op = GREATER_THAN_EQUAL -> advances k E d d' l -> advances k E d' d r ->
    comparable k E d l r -> comparable k E d' l r -> course E d d' true (NCmp l r op t)
| course_more_down k l r op t : op = GREATER_THAN \/ op = GREATER_THAN_EQUAL -> advances k E d' d l -> advances k E d d' r ->
    comparable k E d l r -> comparable k E d' l r -> course E d d' false (NCmp l r op t)
| course_less_up k l r op t : op = LESS_THAN \/ op = LESS_THAN_EQUAL -> advances k E d' d l -> advances k E d d' r ->
    comparable k E d l r -> comparable k E d' l r -> course E d d' true (NCmp l r op t)
| course_less_down k l r op t : op = LESS_THAN \/ op = LESS_THAN_EQUAL -> advances k E d d' l -> advances k E d' d r ->
    comparable k E d l r -> comparable k E d' l r -> course E d d' false (NCmp l r op t)
| course_not up n : course E d d' (negb up) n -> course E d d' up (NBool n None NOT)
| course_join up l r op : op = AND \/ op = OR -> course E d d' up l -> course E d d' up r -> course E d d' up (NBool l (Some r) op).

(** A condition made of such comparisons only, and of comparisons of numbers. *)
Inductive certain (E : env) (d : data) : node -> Prop :=
| certain_numbers n : numeric E d n -> certain E d n
| certain_words k l r op t : In op [GREATER_THAN; GREATER_THAN_EQUAL; LESS_THAN; LESS_THAN_EQUAL] ->
    advances k E d d l -> advances k E d d r -> comparable k E d l r -> certain E d (NCmp l r op t)
| certain_not n : certain E d n -> certain E d (NBool n None NOT)
| certain_join l r op : op = AND \/ op = OR -> certain E d l -> certain E d r -> certain E d (NBool l (Some r) op).
