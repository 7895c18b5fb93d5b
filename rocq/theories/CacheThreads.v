(** Several threads sharing one CachedBoolParser (B/parser/antlr/CachedBoolParser.java:14-31).  The only shared state is the
    Caffeine cache; every call of the underlying parser builds its own lexer, parser and listener
    (B/parser/antlr/BoolParser.java:33-43). *)
From Verif Require Import Base Ast Api Cache.

(** A call to make: the expression and the default field. *)
Definition request := (jstr * option jstr)%type.
Definition request_key (r : request) : jstr := cache_key (fst r) (snd r).

(** A thread: the calls it still has to make, the call whose mapping function it is running, and the calls that returned. *)
Record cthread := CThread { waiting : list request; parsing : option request; answers : list (request * coutcome) }.
Record cshared := CShared { held : cache; workers : list cthread }.
Definition start (scripts : list (list request)) : cshared := CShared [] (map (fun l => CThread l None []) scripts).

(** One step of the scheduler: some thread moves, or Caffeine drops an entry. *)
Inductive tevent := Tick (t : nat) | Drop (key : jstr).

Fixpoint set_worker (t : nat) (w : cthread) (ws : list cthread) : list cthread :=
  match ws, t with
  | [], _ => []
  | _ :: ws', O => w :: ws'
  | w' :: ws', S t' => w' :: set_worker t' w ws'
  end.

(** A thread that runs a mapping function holds the lock of the hash bin of its key (java.util.concurrent.ConcurrentHashMap,
    on which Caffeine is built); [bin] says which keys share a bin. *)
Definition busy (bin : jstr -> nat) (k : jstr) (ws : list cthread) : bool :=
  existsb (fun w => match parsing w with Some r => Nat.eqb (bin (request_key r)) (bin k) | None => false end) ws.

(** CachedBoolParser.getNode, B/parser/antlr/CachedBoolParser.java:28-31, as two steps.  Cache.get answers from the entry if
    there is one; otherwise it takes the lock, or waits for it.  The thread that has the lock runs the parser, stores
    what it returns (nothing if it throws) and releases the lock. *)
Definition tick (bin : jstr -> nat) (t : nat) (s : cshared) : cshared :=
  match nth_error (workers s) t with
  | None => s
  | Some w =>
      match parsing w with
      | Some r =>
          let o := parse_expression (fst r) (snd r) in
          CShared (match o with Ok n => (request_key r, n) :: held s | Err _ => held s end)
                  (set_worker t (CThread (waiting w) None (answers w ++ [(r, Outcome o true)])) (workers s))
      | None =>
          match waiting w with
          | [] => s
          | r :: rest =>
              match cache_find (request_key r) (held s) with
              | Some n => CShared (held s) (set_worker t (CThread rest None (answers w ++ [(r, Outcome (Ok n) false)])) (workers s))
              | None => if busy bin (request_key r) (workers s) then s
                        else CShared (held s) (set_worker t (CThread rest (Some r) (answers w)) (workers s))
              end
          end
      end
  end.

Definition tstep (bin : jstr -> nat) (s : cshared) (e : tevent) : cshared :=
  match e with
  | Tick t => tick bin t s
  | Drop k => CShared (filter (fun e => negb (jstr_eqb (fst e) k)) (held s)) (workers s)
  end.
Definition trun (bin : jstr -> nat) (s : cshared) (es : list tevent) : cshared := fold_left (tstep bin) es s.
