(** Model of pool/gopool/gopool.go.

    A submitted function is known by the goroutine that submitted it and the number of that action; it runs for as long as it
    likes and ends by returning or with a panic.  Steps are single accesses to shared variables; plain variables are taken as
    sequentially consistent.  Functions that themselves call Go are in
    GopoolNest_Model.v.  FuncLimit
    is at least 1: with an unbuffered channel the first Go would wait for ever for a receiver. *)
From stdpp Require Import list.
From Coq Require Import ZArith.
Local Open Scope Z_scope.

(** A function (the argument of Go, pool/gopool/gopool.go:85). *)
Definition fid : Type := nat * nat.
(** What a client does: Go, Close, TurnOff (pool/gopool/gopool.go:85,103,116). *)
Inductive gact := AGo | AClose | ATurn (off : bool).
(** Inside those (the numbers are lines of gopool.go). *)
Inductive cpc :=
| CIdle
| CTest (f : fid)        (* 86 *)
| CSend (f : fid)        (* 87 *)
| CInc                   (* 88 *)
| CTry                   (* 89 *)
| CFlag                  (* 105 *)
| CSetClose              (* 106 *)
| CCancel                (* 107 *)
| CSpawn                 (* 108 *)
| CClosePool             (* 112 *)
| CTurn (off : bool)     (* 117,119 *)
| CTurnSet (off : bool). (* 118,120 *)
(** The dispatcher, _funcn and funcn. *)
Inductive dpc :=
| DRecv                        (* 131 *)
| DTest (f : fid)              (* 132 *)
| DCount (f : fid)             (* 136 *)
| DNew (f : fid)               (* 137 *)
| DId (f : fid)                (* 138 *)
| DId2 (f : fid)               (* 140 *)
| DPool (f : fid)              (* 139,143 *)
| DAdd (f : fid) (w : nat)     (* 145, 25 *)
| DOnce (w : nat)              (* 26 *)
| DDec                         (* 147 *)
| DCheck                       (* 151 *)
| DUnlock.                     (* 126 *)
(** A worker's goroutine, run. *)
Inductive rpc :=
| RSel                   (* 40 *)
| RCall (f : fid)        (* 42: about to call f *)
| RBody                  (* 42: inside f *)
| RPut (d : bool)        (* 158; [d]: called at 34, from the deferred function *)
| RPut2 (d : bool)       (* 159 *)
| RPut3 (d : bool).      (* 160 *)
(** The goroutines of a program: clients (number, actions to do, number of the next), the dispatcher, workers, functions started
    by the go statements 93 and 133 (about to run, running), and the one that closes funcnPool (108-111). *)
Inductive gth :=
| GClient (t : nat) (todo : list gact) (k : nat) (p : cpc)
| GDisp (p : dpc)
| GRun (w : nat) (p : rpc)
| GPlain (f : fid)
| GBody
| GCloser
| GEnd.
(** pool/gopool/gopool.go:17-22 [funcn]: id, task (capacity 1), whether once has been done. *)
Record gworker := GW { wid : Z; wtask : option fid; wonce : bool }.
(** pool/gopool/gopool.go:53-66 [GoPool]: funcnPool and pool with whether they are closed, id, count, tnum, mux, close,
    _closeflag, whether ctx is done, the funcns made; [gstart] lists the functions started so far and [gcrash] says that the
    program has ended with a panic, both for the theorems. *)
Record gshared := GS {
  fq : list fid; fqc : bool; pq : list nat; pqc : bool; gid : Z; gcount : Z; gtnum : Z; gmux : bool; gclose : bool; gflag : bool;
  gctx : bool; gws : list gworker; gstart : list fid; gcrash : bool }.
(** The pool and the goroutines (pool/gopool/gopool.go:53). *)
Record gconf := GC { gsh : gshared; gths : list gth }.

(** Assignments to the fields (pool/gopool/gopool.go:53-66). *)
Definition s_fq x s := GS x (fqc s) (pq s) (pqc s) (gid s) (gcount s) (gtnum s) (gmux s) (gclose s) (gflag s) (gctx s) (gws s) (gstart s) (gcrash s).
Definition s_fqc x s := GS (fq s) x (pq s) (pqc s) (gid s) (gcount s) (gtnum s) (gmux s) (gclose s) (gflag s) (gctx s) (gws s) (gstart s) (gcrash s).
Definition s_pq x s := GS (fq s) (fqc s) x (pqc s) (gid s) (gcount s) (gtnum s) (gmux s) (gclose s) (gflag s) (gctx s) (gws s) (gstart s) (gcrash s).
Definition s_pqc x s := GS (fq s) (fqc s) (pq s) x (gid s) (gcount s) (gtnum s) (gmux s) (gclose s) (gflag s) (gctx s) (gws s) (gstart s) (gcrash s).
Definition s_gid x s := GS (fq s) (fqc s) (pq s) (pqc s) x (gcount s) (gtnum s) (gmux s) (gclose s) (gflag s) (gctx s) (gws s) (gstart s) (gcrash s).
Definition s_count x s := GS (fq s) (fqc s) (pq s) (pqc s) (gid s) x (gtnum s) (gmux s) (gclose s) (gflag s) (gctx s) (gws s) (gstart s) (gcrash s).
Definition s_tnum x s := GS (fq s) (fqc s) (pq s) (pqc s) (gid s) (gcount s) x (gmux s) (gclose s) (gflag s) (gctx s) (gws s) (gstart s) (gcrash s).
Definition s_mux x s := GS (fq s) (fqc s) (pq s) (pqc s) (gid s) (gcount s) (gtnum s) x (gclose s) (gflag s) (gctx s) (gws s) (gstart s) (gcrash s).
Definition s_close x s := GS (fq s) (fqc s) (pq s) (pqc s) (gid s) (gcount s) (gtnum s) (gmux s) x (gflag s) (gctx s) (gws s) (gstart s) (gcrash s).
Definition s_flag x s := GS (fq s) (fqc s) (pq s) (pqc s) (gid s) (gcount s) (gtnum s) (gmux s) (gclose s) x (gctx s) (gws s) (gstart s) (gcrash s).
Definition s_ctx x s := GS (fq s) (fqc s) (pq s) (pqc s) (gid s) (gcount s) (gtnum s) (gmux s) (gclose s) (gflag s) x (gws s) (gstart s) (gcrash s).
Definition s_ws x s := GS (fq s) (fqc s) (pq s) (pqc s) (gid s) (gcount s) (gtnum s) (gmux s) (gclose s) (gflag s) (gctx s) x (gstart s) (gcrash s).
Definition s_start x s := GS (fq s) (fqc s) (pq s) (pqc s) (gid s) (gcount s) (gtnum s) (gmux s) (gclose s) (gflag s) (gctx s) (gws s) x (gcrash s).
Definition s_crash s := GS (fq s) (fqc s) (pq s) (pqc s) (gid s) (gcount s) (gtnum s) (gmux s) (gclose s) (gflag s) (gctx s) (gws s) (gstart s) true.

Section pool.
(** pool/gopool/gopool.go:72-79: minlimit, maxlimit after line 77, FuncLimit. *)
Context (min max lim : Z).

(** One step of a goroutine and the goroutine it starts, if any; [None] when it has to wait or has ended.  [ch] decides which ready
    case of the select is taken (40-45) and whether a function panics (42).  pool/gopool/gopool.go:24-164. *)
Definition gstep (s : gshared) (th : gth) (ch : bool) : option (gshared * gth * list gth) :=
  match th with
  | GClient t todo k p =>
      let go s p := Some (s, GClient t todo k p, []) in
      match p with
      | CIdle =>
          match todo with
          | [] => None
          | a :: todo => Some (s, GClient t todo (S k) (match a with AGo => CTest (t, k) | AClose => CFlag | ATurn off => CTurn off end), [])
          end
      | CTest f => if gclose s then Some (s, GClient t todo k CIdle, [GPlain f]) else go s (CSend f)
      | CSend f =>
          if fqc s then Some (s_crash s, GEnd, [])
          else if Z.of_nat (length (fq s)) <? lim then go (s_fq (fq s ++ [f]) s) CInc else None
      | CInc => go (s_tnum (gtnum s + 1) s) CTry
      | CTry => if gmux s then go s CIdle else Some (s_mux true s, GClient t todo k CIdle, [GDisp DRecv])
      | CFlag => if gflag s then go s CIdle else go (s_flag true s) CSetClose
      | CSetClose => go (s_close true s) CCancel
      | CCancel => go (s_ctx true s) CSpawn
      | CSpawn => Some (s, GClient t todo k CClosePool, [GCloser])
      | CClosePool => go (s_pqc true s) CIdle
      | CTurn off => if gflag s then go s CIdle else go s (CTurnSet off)
      | CTurnSet off => go (s_close off s) CIdle
      end
  | GDisp p =>
      let go s p := Some (s, GDisp p, []) in
      match p with
      | DRecv => match fq s with f :: q => go (s_fq q s) (DTest f) | [] => if fqc s then go s DCheck else None end
      | DTest f => if gclose s then Some (s, GDisp DDec, [GPlain f]) else go s (DCount f)
      | DCount f =>
          let c := gcount s + 1 in
          go (s_count c s) (if (min <? c) && (c <=? max) then DNew f else DId f)
      | DNew f => go (s_gid (gid s + 1) (s_ws (gws s ++ [GW (gid s + 1) None false]) s)) (DAdd f (length (gws s)))
      | DId f => go s (if min <? gid s then DPool f else DId2 f)
      | DId2 f =>
          if gid s + 1 <=? min
          then go (s_gid (gid s + 1) (s_ws (gws s ++ [GW (gid s + 1) None false]) s)) (DAdd f (length (gws s)))
          else go (s_gid (gid s + 1) s) (DPool f)
      | DPool f => match pq s with w :: q => go (s_pq q s) (DAdd f w) | [] => if pqc s then go s DUnlock else None end
      | DAdd f w =>
          match gws s !! w with
          | Some x => match wtask x with
                      | None => go (s_ws (<[w := GW (wid x) (Some f) (wonce x)]> (gws s)) s) (DOnce w)
                      | Some _ => None
                      end
          | None => None
          end
      | DOnce w =>
          match gws s !! w with
          | Some x => if wonce x then go s DDec
                      else Some (s_ws (<[w := GW (wid x) (wtask x) true]> (gws s)) s, GDisp DDec, [GRun w RSel])
          | None => None
          end
      | DDec => go (s_tnum (gtnum s - 1) s) (if gtnum s - 1 <=? 0 then DCheck else DRecv)
      | DCheck => go s (if 0 <? gtnum s then DRecv else DUnlock)
      | DUnlock => Some (s_mux false s, GEnd, [])
      end
  | GRun w p =>
      let go s p := Some (s, GRun w p, []) in
      match gws s !! w with
      | None => None
      | Some x =>
          match p with
          | RSel =>
              if gctx s && ch then Some (s, GEnd, [])
              else match wtask x with
                   | Some f => go (s_ws (<[w := GW (wid x) None (wonce x)]> (gws s)) s) (RCall f)
                   | None => None
                   end
          | RCall f => go (s_start (gstart s ++ [f]) s) RBody
          | RBody => go s (RPut ch)
          | RPut d => go (s_count (gcount s - 1) s) (RPut2 d)
          | RPut2 d => if (wid x <=? min) && negb (gflag s) then go s (RPut3 d) else Some (s, GEnd, [])
          | RPut3 d =>
              if pqc s then if d then Some (s_crash s, GEnd, []) else go s (RPut true)
              else if Z.of_nat (length (pq s)) <? min then go (s_pq (pq s ++ [w]) s) RSel else None
          end
      end
  | GPlain f => Some (s_start (gstart s ++ [f]) s, GBody, [])
  | GBody => Some (if ch then s_crash s else s, GEnd, [])
  | GCloser => Some (s_fqc true s, GEnd, [])
  | GEnd => None
  end.

(** Goroutine [e.1]'s turn (pool/gopool/gopool.go:24-164); nothing happens after a crash. *)
Definition gconf_step (c : gconf) (e : nat * bool) : gconf :=
  if gcrash (gsh c) then c
  else match gths c !! e.1 with
       | None => c
       | Some th => match gstep (gsh c) th e.2 with
                    | Some (s, th, new) => GC s (<[e.1 := th]> (gths c) ++ new)
                    | None => c
                    end
       end.
(** Any interleaving (pool/gopool/gopool.go:24-164). *)
Definition grun (c : gconf) (evs : list (nat * bool)) : gconf := foldl gconf_step c evs.
End pool.
(** pool/gopool/gopool.go:72-83 [NewPoolWithFuncLimit], and clients about to do their actions. *)
Definition ginit (progs : list (list gact)) : gconf :=
  GC (GS [] false [] false 0 0 0 false false false false [] [] false) (imap (fun t p => GClient t p 0 CIdle) progs).
(** pool/gopool/gopool.go:76-78. *)
Definition maxlimit (minlimit max : Z) : Z := if max <? minlimit then minlimit else max.
