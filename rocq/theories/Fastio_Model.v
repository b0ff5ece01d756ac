(** Model of fastio/fw.go [mwriter] (with the file of fastio/file.go).

    Steps are single accesses to shared variables, as written; plain (not atomic) variables are taken as sequentially
    consistent.  The file is its bytes: it is open for appending (fastio/file.go:24) or nobody else moves its position, so a write
    appends.  A write to the file may fail after a prefix ([io] of an event).  Not modelled: Close, Read, ReadAt, WriteAt of
    fastio/file.go (single calls to os.File), and wrap-around of cc, wc (int32) and offset (int64). *)
From stdpp Require Import list.
From Coq Require Import ZArith.
Local Open Scope Z_scope.

(** fastio/file.go:15,17: [Write] ([sync] false) and [WriteSync]. *)
Record wcall := WCall { wsync : bool; wbs : list Z }.
(** Their results: n or offset, and whether err is not nil (fastio/fw.go:41,77). *)
Definition wres : Type := Z * bool.
(** fastio/fw.go:22-26 [writeData]: data, offset; done is [None] when nil, else whether it is closed.  [down]: the goroutine and
    the number of the call that made it, for the theorems only. *)
Record wdata := WD { down : nat * nat; dbytes : list Z; doff : Z; ddone : option bool }.

(** Inside ioWrite: [buf] is what bw holds, [ids] the writeData whose done is to be closed on return, latest first. *)
Inductive iopc :=
| IoTest                                          (* 105: m.wc == 0 *)
| IoSet                                           (* 108 *)
| IoRecv (buf : list Z) (ids : list nat)          (* 111-118 *)
| IoAdd (buf : list Z) (ids : list nat) (n : Z)   (* 119 *)
| IoDec (buf : list Z) (ids : list nat)           (* 120 *)
| IoEnd (buf : list Z) (ids : list nat)           (* 124 *)
| IoFlush (buf : list Z) (ids : list nat)         (* 125 *)
| IoClose (ids : list nat) (err : bool).          (* 113: the deferred closes *)
(** Where a goroutine is; the numbers are lines of fastio/fw.go (of WriteSync / Write).  The number in [WIo] and the queue path
    is the goroutine's own writeData. *)
Inductive wpc :=
| WIdle
| WEnter (c : wcall)                              (* 43/79: cc *)
| WLock (c : wcall)                               (* 44/80 *)
| WTest (c : wcall)                               (* 46/82 *)
| WFile (c : wcall)                               (* 50/85 *)
| WOff (c : wcall) (n : Z) (err : bool)           (* 51-52/86 *)
| WUnlock (c : wcall) (r : wres)                  (* 45/81, deferred *)
| WInc (c : wcall)                                (* 55/90: wc *)
| WSend (c : wcall)                               (* 56-57/91 *)
| WStart (c : wcall) (id : nat)                   (* 59/93: m.ioend *)
| WTry (c : wcall) (id : nat)                     (* 59/93: TryLock *)
| WElse (c : wcall) (id : nat)                    (* 65-70/98 *)
| WQUnlock (c : wcall) (id : nat)                 (* 63/97 *)
| WEnd (c : wcall) (id : nat)                     (* 73/101 *)
| WLeave (c : wcall) (r : wres)                   (* 42/78: cc, deferred *)
| WIo (c : wcall) (k : option nat) (p : iopc).    (* 47,60/83,94: inside ioWrite *)

(** A goroutine (fastio/fw.go:41-102). *)
Record wthread := WTh { wtodo : list wcall; wpos : wpc; wlog : list (wcall * wres) }.
(** fastio/fw.go:28-35 [mwriter] and fastio/file.go:41-46: the file's bytes, fh.offset, ch (capacity 1<<16, line 38), the
    writeData made so far, wc, cc, mu (writer, number of readers), ioend. *)
Record wshared := WSh {
  sfile : list Z; soff : Z; sch : list nat; swds : list wdata; swc : Z; scc : Z; smw : bool; smr : Z; sioend : bool }.
(** The writer and its goroutines (fastio/fw.go:28). *)
Record wconf := WConf { wsh : wshared; wths : list wthread }.

(** Assignments to the fields (fastio/fw.go:28-35). *)
Definition set_file f s := WSh f (soff s) (sch s) (swds s) (swc s) (scc s) (smw s) (smr s) (sioend s).
Definition set_off o s := WSh (sfile s) o (sch s) (swds s) (swc s) (scc s) (smw s) (smr s) (sioend s).
Definition set_ch c s := WSh (sfile s) (soff s) c (swds s) (swc s) (scc s) (smw s) (smr s) (sioend s).
Definition set_wds d s := WSh (sfile s) (soff s) (sch s) d (swc s) (scc s) (smw s) (smr s) (sioend s).
Definition set_wc n s := WSh (sfile s) (soff s) (sch s) (swds s) n (scc s) (smw s) (smr s) (sioend s).
Definition set_cc n s := WSh (sfile s) (soff s) (sch s) (swds s) (swc s) n (smw s) (smr s) (sioend s).
Definition set_mu w r s := WSh (sfile s) (soff s) (sch s) (swds s) (swc s) (scc s) w r (sioend s).
Definition set_ioend b s := WSh (sfile s) (soff s) (sch s) (swds s) (swc s) (scc s) (smw s) (smr s) b.

(** The capacity of ch (fastio/fw.go:38). *)
Definition chcap : Z := 65536.
(** The size of a bufio.Writer (fastio/fw.go:110; bufio.NewWriter's default). *)
Definition bwsize : nat := Z.to_nat 4096.

(** os.File.Write (fastio/fw.go:50,85): [io] is [None] or the number of bytes written before the error.  File, n, err. *)
Definition fwrite (io : option nat) (f bs : list Z) : list Z * Z * bool :=
  match io with
  | None => (f ++ bs, Z.of_nat (length bs), false)
  | Some k => (f ++ take k bs, Z.of_nat (Nat.min k (length bs)), true)
  end.
(** bufio.Writer.Write (fastio/fw.go:116): a full buffer goes to the file; file, buffer, err. *)
Definition bwrite (io : option nat) (f buf bs : list Z) : list Z * list Z * bool :=
  let avail := (bwsize - length buf)%nat in
  if (length bs <=? avail)%nat then (f, buf ++ bs, false)
  else match buf with
       | [] => let '(f', _, e) := fwrite io f bs in (f', [], e)
       | _ => let '(f', _, e) := fwrite io f (buf ++ take avail bs) in
              if e then (f', [], true)
              else let r := drop avail bs in
                   if (length r <=? bwsize)%nat then (f', r, false)
                   else let '(f'', _, e') := fwrite io f' r in (f'', [], e')
       end.

(** What follows ioWrite: the direct path goes on to write (fastio/fw.go:50,85), whatever ioWrite returned; the queue path unlocks,
    or returns at once on an error, without unlocking (fastio/fw.go:60-63, 94-97). *)
Definition io_return (c : wcall) (k : option nat) (err : bool) : wpc :=
  match k with
  | None => WFile c
  | Some id => if err then WLeave c (0, true) else WQUnlock c id
  end.

(** One step of goroutine [t], whose call is its [length (wlog th)]-th (fastio/fw.go:41-127); [None] when it has to wait or has
    nothing to do.  [tm]: the timer of line 68 wins the select. *)
Definition wthread_step (s : wshared) (t : nat) (th : wthread) (io : option nat) (tm : bool) : option (wshared * wthread) :=
  let go s p := Some (s, WTh (wtodo th) p (wlog th)) in
  match wpos th with
  | WIdle => match wtodo th with [] => None | c :: r => Some (s, WTh r (WEnter c) (wlog th)) end
  | WEnter c => go (set_cc (scc s + 1) s) (if scc s + 1 <=? 1 then WLock c else WInc c)
  | WLock c =>
      if smw s then None
      else if wsync c then if smr s =? 0 then go (set_mu true 0 s) (WTest c) else None
      else go (set_mu false (smr s + 1) s) (WTest c)
  | WTest c => go s (if 0 <? swc s then WIo c None IoTest else WFile c)
  | WFile c => let '(f, n, e) := fwrite io (sfile s) (wbs c) in go (set_file f s) (WOff c n e)
  | WOff c n e => go (set_off (soff s + n) s) (WUnlock c (if wsync c then soff s else n, e))
  | WUnlock c r => go (if wsync c then set_mu false (smr s) s else set_mu (smw s) (smr s - 1) s) (WLeave c r)
  | WInc c => go (set_wc (swc s + 1) s) (WSend c)
  | WSend c =>
      if Z.of_nat (length (sch s)) <? chcap
      then let id := length (swds s) in
           let d := WD (t, length (wlog th)) (wbs c) 0 (if wsync c then Some false else None) in
           go (set_ch (sch s ++ [id]) (set_wds (swds s ++ [d]) s)) (WStart c id)
      else None
  | WStart c id => go s (if sioend s then WTry c id else WElse c id)
  | WTry c id =>
      if negb (smw s) && (smr s =? 0) then go (set_mu true 0 s) (WIo c (Some id) IoTest) else go s (WElse c id)
  | WElse c id =>
      if wsync c
      then if tm then go s (WStart c id)
           else match swds s !! id with
                | Some d => match ddone d with Some true => go s (WEnd c id) | _ => None end
                | None => None
                end
      else go s (if sioend s then WStart c id else WEnd c id)
  | WQUnlock c id => go (set_mu false (smr s) s) (WEnd c id)
  | WEnd c id =>
      match swds s !! id with
      | Some d => go s (WLeave c (if wsync c then doff d else Z.of_nat (length (wbs c)), false))
      | None => None
      end
  | WLeave c r => Some (set_cc (scc s - 1) s, WTh (wtodo th) WIdle ((c, r) :: wlog th))
  | WIo c k p =>
      let io' s p := go s (WIo c k p) in
      match p with
      | IoTest => if swc s =? 0 then go s (io_return c k false) else io' s IoSet
      | IoSet => io' (set_ioend false s) (IoRecv [] [])
      | IoRecv buf ids =>
          match sch s with
          | [] => None
          | id :: q =>
              match swds s !! id with
              | None => None
              | Some d =>
                  let ids := match ddone d with Some _ => id :: ids | None => ids end in
                  let s := set_ch q (set_wds (<[id := WD (down d) (dbytes d) (soff s) (ddone d)]> (swds s)) s) in
                  let '(f, buf', e) := bwrite io (sfile s) buf (dbytes d) in
                  let s := set_file f s in
                  if e then io' s (IoClose ids true) else io' s (IoAdd buf' ids (Z.of_nat (length (dbytes d))))
              end
          end
      | IoAdd buf ids n => io' (set_off (soff s + n) s) (IoDec buf ids)
      | IoDec buf ids => io' (set_wc (swc s - 1) s) (if swc s - 1 =? 0 then IoEnd buf ids else IoRecv buf ids)
      | IoEnd buf ids => io' (set_ioend true s) (IoFlush buf ids)
      | IoFlush buf ids => let '(f, _, e) := fwrite io (sfile s) buf in io' (set_file f s) (IoClose ids e)
      | IoClose [] err => go s (io_return c k err)
      | IoClose (id :: ids) err =>
          match swds s !! id with
          | Some d => io' (set_wds (<[id := WD (down d) (dbytes d) (doff d) (Some true)]> (swds s)) s) (IoClose ids err)
          | None => None
          end
      end
  end.

(** An event: whose turn it is, the outcome of a file write, the outcome of the select (fastio/fw.go:65-70). *)
Record wev := WEv { evt : nat; evio : option nat; evtm : bool }.
(** What happens then (fastio/fw.go:41-127). *)
Definition wconf_step (c : wconf) (e : wev) : wconf :=
  match wths c !! evt e with
  | None => c
  | Some th => match wthread_step (wsh c) (evt e) th (evio e) (evtm e) with
               | Some (s, th) => WConf s (<[evt e := th]> (wths c))
               | None => c
               end
  end.
(** fastio/file.go:31-39 [New] on a file with these bytes, fastio/fw.go:37-39; goroutines about to make their calls. *)
Definition winit (file : list Z) (progs : list (list wcall)) : wconf :=
  WConf (WSh file (Z.of_nat (length file)) [] [] 0 0 false 0 true) ((fun p => WTh p WIdle []) <$> progs).
(** Any interleaving (fastio/fw.go:41-127). *)
Definition wrun (c : wconf) (evs : list wev) : wconf := foldl wconf_step c evs.

(** The slice given to Write is kept in the queue, not copied (fastio/fw.go:56,91): a caller who changes the slice of a call
    that has returned changes the record still waiting. *)
Definition wreuse (c : wconf) (t i : nat) (bs : list Z) : wconf :=
  match wths c !! t with
  | Some th =>
      if (i <? length (wlog th))%nat
      then WConf (set_wds ((fun d => if decide (down d = (t, i)) then WD (down d) bs (doff d) (ddone d) else d) <$> swds (wsh c)) (wsh c)) (wths c)
      else c
  | None => c
  end.
