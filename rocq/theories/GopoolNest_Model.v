(** pool/gopool/gopool.go, functions that themselves use the pool.

    [Gopool_Model] with one more thing: a function that has been started makes calls of Go, Close and TurnOff, in its own
    goroutine, and returns or panics only when these have returned. *)
From stdpp Require Import list.
From Coq Require Import ZArith.
From Verif Require Import Gopool_Model.
Local Open Scope Z_scope.

(** The function that the goroutine calls with its next step (pool/gopool/gopool.go:42,93,133). *)
Definition starts (th : gth) : option fid :=
  match th with GRun _ (RCall f) => Some f | GPlain f => Some f | _ => None end.
(** The goroutine is inside a function (pool/gopool/gopool.go:42,93,133). *)
Definition in_body (th : gth) : bool := match th with GRun _ RBody => true | GBody => true | _ => false end.
(** All calls have returned (pool/gopool/gopool.go:85,103,116). *)
Definition idle (th : gth) : bool := match th with GClient _ [] _ CIdle => true | _ => false end.

(** The goroutines, and for the functions started so far: which goroutine has called it and which one stands for the calls it
    makes (pool/gopool/gopool.go:42,93,133). *)
Record nconf := NC { nbase : gconf; ncalls : list (nat * nat) }.
(** All calls made so far by functions in this goroutine have returned (pool/gopool/gopool.go:42). *)
Definition calls_done (c : nconf) (i : nat) : bool :=
  forallb (fun ij => negb (ij.1 =? i)%nat || match gths (nbase c) !! ij.2 with Some th => idle th | None => true end) (ncalls c).

Section nest.
(** As in [Gopool_Model], and the calls that a function makes, and the number of clients outside functions
    (pool/gopool/gopool.go:72-79,85). *)
Context (min max lim : Z) (prog : fid -> list gact) (n : nat).

(** Goroutine [e.1]'s turn (pool/gopool/gopool.go:24-164).  The calls of the function started as number [k] are those of client
    [n + k].  Simplification: a function panics after its last call only; one that would have made further calls is the same as one
    that would not. *)
Definition nstep (c : nconf) (e : nat * bool) : nconf :=
  if gcrash (gsh (nbase c)) then c
  else match gths (nbase c) !! e.1 with
       | None => c
       | Some th =>
           if in_body th && negb (calls_done c e.1) then c
           else match gstep min max lim (gsh (nbase c)) th e.2 with
                | None => c
                | Some (s, th', new) =>
                    let ths := <[e.1 := th']> (gths (nbase c)) ++ new in
                    match starts th with
                    | None => NC (GC s ths) (ncalls c)
                    | Some f => NC (GC s (ths ++ [GClient (n + length (gstart (gsh (nbase c)))) (prog f) 0 CIdle])) (ncalls c ++ [(e.1, length ths)])
                    end
                end
       end.
(** Any interleaving (pool/gopool/gopool.go:24-164). *)
Definition nrun (c : nconf) (evs : list (nat * bool)) : nconf := foldl nstep c evs.
End nest.
(** See [ginit] (pool/gopool/gopool.go:72-83). *)
Definition ninit (progs : list (list gact)) : nconf := NC (ginit progs) [].
