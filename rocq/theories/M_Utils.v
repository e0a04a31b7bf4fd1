(** Model of hub_toolbox/utils.py: the counter shared by worker processes. *)
From Coq Require Import ZArith List Arith Lia Bool.
From Verif Require Import S_Utils.
Import ListNotations.
Local Open Scope Z_scope.

(** Where a process is inside a call.  [Acq] to [Got] are inside
    `with self.val.get_lock()` (utils.py:22-24) or, for a read, inside the lock
    that `Value.value` takes itself (utils.py:26-28).  `+=` is a separate read
    and write, and `return self.val.value` reads again.  The lock of
    multiprocessing.Value is recursive, so the nested acquisitions of `.value`
    by the holder never block and are not separate steps. *)
Inductive pcs := Idle | Acq (o : cop) | Rd (o : cop) (v : Z) | Wr (o : cop) | Got (o : cop) (v : Z) | Dead.

(** The shared int and its lock, and for each process its position and the calls
    it has still to make.  [log] lists the finished calls, the latest last, with
    the process, the operation and the returned value. (utils.py:15-28) *)
Record cstate := CS { cval : Z; clock : option nat; cpc : nat -> pcs; ctodo : nat -> list cop; log : list (nat * cop * Z) }.

(** pointwise update of the per-process components of the state of utils.py:15-28 *)
Definition upd {A} (f : nat -> A) (p : nat) (x : A) : nat -> A := fun q => if Nat.eqb q p then x else f q.

(** utils.py:17-18 __init__: Value('i', init) *)
Definition cinit (init : Z) (prog : nat -> list cop) : cstate :=
  CS (int32 init) None (fun _ => Idle) prog [].

(** one step of process [p]; [c_kill] is the death of the process at any point
    (utils.py:20-28) *)
Inductive cstep (p : nat) : cstate -> cstate -> Prop :=
| c_acquire s o t : cpc s p = Idle -> clock s = None -> ctodo s p = o :: t ->
    cstep p s (CS (cval s) (Some p) (upd (cpc s) p (Acq o)) (upd (ctodo s) p t) (log s))
| c_read_inc s n : cpc s p = Acq (Inc n) ->
    cstep p s (CS (cval s) (clock s) (upd (cpc s) p (Rd (Inc n) (cval s))) (ctodo s) (log s))
| c_write s n v : cpc s p = Rd (Inc n) v ->
    cstep p s (CS (int32 (v + n)) (clock s) (upd (cpc s) p (Wr (Inc n))) (ctodo s) (log s))
| c_reread s n : cpc s p = Wr (Inc n) ->
    cstep p s (CS (cval s) (clock s) (upd (cpc s) p (Got (Inc n) (cval s))) (ctodo s) (log s))
| c_read_get s : cpc s p = Acq Get ->
    cstep p s (CS (cval s) (clock s) (upd (cpc s) p (Got Get (cval s))) (ctodo s) (log s))
| c_release s o v : cpc s p = Got o v ->
    cstep p s (CS (cval s) None (upd (cpc s) p Idle) (ctodo s) (log s ++ [(p, o, v)]))
| c_kill s : cpc s p <> Dead ->
    cstep p s (CS (cval s) (clock s) (upd (cpc s) p Dead) (upd (ctodo s) p []) (log s)).

(** executions of the calls of utils.py:20-28 *)
Inductive csteps : cstate -> cstate -> Prop :=
| cs_refl s : csteps s s
| cs_step s s' s'' p : csteps s s' -> cstep p s' s'' -> csteps s s''.
