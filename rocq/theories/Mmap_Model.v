(** Model of mmap/mmap.go and its three mmapSyncToDisk (mmap/sync_unix.go, sync_windows.go, sync_solaris.go).

    The mapping is a list of bytes of the file's size; [mdisk] is what the disk holds, that is, what a crash would leave.  The
    kernel may write any byte of the mapping back to disk at any time ([MWB]).  Every goroutine step is one access: taking the
    mutex, the test of the size, the store of the offset, one byte of [copy], one byte of msync.
    Unmap, Close, UnmapAndCloseFile, Flush and Bytes are in MmapLife_Model.v. *)
From stdpp Require Import list.
From Coq Require Import ZArith.
From Verif Require Import GoInt.
Local Open Scope Z_scope.

(** The three platforms (build constraints of mmap/sync_unix.go:9, sync_windows.go:9, sync_solaris.go:9). *)
Inductive mplat := Unix | Windows | Solaris.

(** The calls: mmap/mmap.go:45 [Append], 59 [AppendSync], 66 [WriteAt], 81 [WriteAtSync]. *)
Inductive mcall :=
| MAppend (bs : list Z) | MAppendSync (bs : list Z) | MWriteAt (bs : list Z) (off : Z) | MWriteAtSync (bs : list Z) (off : Z).
(** What they return.  [MRAt n]: (n, nil); [MRNil]: nil; [MRFull]: "exceeding file size limit" (with n = 0 for Append);
    [MRSync n]: (n, msync error); [MRSyncErr]: the msync error; [MRPanic]: the call panicked (mmap/mmap.go:45-86). *)
Inductive mres := MRAt (n : Z) | MRNil | MRFull | MRSync (n : Z) | MRSyncErr | MRPanic.

(** The argument bs (mmap/mmap.go:45,59,66,81). *)
Definition mbytes (c : mcall) : list Z :=
  match c with MAppend bs | MAppendSync bs | MWriteAt bs _ | MWriteAtSync bs _ => bs end.
(** int64(len(bs)) (mmap/mmap.go:47). *)
Definition mlen (c : mcall) : Z := Z.of_nat (length (mbytes c)).
(** The calls that go on to mmapSyncToDisk (mmap/mmap.go:61,83). *)
Definition msyncs (c : mcall) : bool := match c with MAppendSync _ | MWriteAtSync _ _ => true | _ => false end.
(** The result of a call that succeeded at [n] (mmap/mmap.go:57,63,78,85). *)
Definition mok (c : mcall) (n : Z) : mres := match c with MAppend _ | MAppendSync _ => MRAt n | _ => MRNil end.
(** The result of a call whose msync failed (mmap/mmap.go:61,83). *)
Definition mfail (c : mcall) (n : Z) : mres := match c with MAppend _ | MAppendSync _ => MRSync n | _ => MRSyncErr end.

(** Where a goroutine is; the numbers are lines of mmap/mmap.go (of Append; WriteAt is alike, one at 66-79). *)
Inductive mpc :=
| MIdle
| MIn (c : mcall)                        (* 47: holds the mutex *)
| MStore (c : mcall) (n : Z)             (* 53: holds the mutex, the test passed *)
| MSlice (c : mcall) (n : Z)             (* 55: the slice expression *)
| MCopy (c : mcall) (n : Z) (j : nat)    (* 55: copy, at byte j *)
| MSyncIn (c : mcall) (n : Z)            (* 61: mmapSyncToDisk called *)
| MSyncing (c : mcall) (n : Z) (a : nat) (left : nat).  (* msync, at byte a of the mapping *)

(** A goroutine: calls to make, position, calls returned with their results, latest first (mmap/mmap.go:45-86). *)
Record mthread := MTh { mtodo : list mcall; mpos : mpc; mlog : list (mcall * mres) }.
(** mmap/mmap.go:37-43 [Mmap]: _mmap, offset, maxsize, mux (its holder), and the bytes on disk. *)
Record mshared := MSh { mmem : list Z; moff : Z; mmax : Z; mmux : option nat; mdisk : list Z }.
(** An Mmap and the goroutines that use it (mmap/mmap.go:37). *)
Record mconf := MConf { msh : mshared; mths : list mthread }.

(** The test of mmap/mmap.go:47 and 68: true when the call does not fit.  Int is 64 bits wide. *)
Definition mfull (s : mshared) (c : mcall) : bool :=
  match c with
  | MAppend _ | MAppendSync _ => mmax s <? i64 (moff s + mlen c)
  | MWriteAt _ off | MWriteAtSync _ off => mmax s <? i64 (off + mlen c)
  end.
(** Where the bytes go: mmap/mmap.go:52, or the argument of WriteAt. *)
Definition mwhere (s : mshared) (c : mcall) : Z :=
  match c with MAppend _ | MAppendSync _ => moff s | MWriteAt _ off | MWriteAtSync _ off => off end.
(** The new offset: mmap/mmap.go:53 and 73-75. *)
Definition mnewoff (s : mshared) (c : mcall) : Z :=
  match c with
  | MAppend _ | MAppendSync _ => i64 (moff s + mlen c)
  | MWriteAt _ off | MWriteAtSync _ off => if moff s <? i64 (off + mlen c) then i64 (off + mlen c) else moff s
  end.
(** The slice expression of mmap/mmap.go:55 and 77: false when it panics. *)
Definition mslice_ok (s : mshared) (c : mcall) (n : Z) : bool :=
  (0 <=? n) && (n <=? i64 (n + mlen c)) && (i64 (n + mlen c) <=? Z.of_nat (length (mmem s))).

(** The range mmapSyncToDisk hands to the kernel: start and length; [None] when it panics.
    mmap/sync_unix.go:21-28 (the index expression of line 27 panics past the end), mmap/sync_windows.go:20-22 (&bs[0] panics for
    an empty slice), mmap/sync_solaris.go:16-18 (nothing is synced). *)
Definition msync_args (pl : mplat) (page : Z) (size : Z) (n len : Z) : option (Z * Z) :=
  match pl with
  | Unix => let p := Z.quot n page in let start := p * page in
            if (0 <=? start) && (start <? size) then Some (start, n - start + len) else None
  | Windows => if (0 <=? n) && (n <=? n + len) && (n + len <=? size) && (0 <? len) then Some (n, len) else None
  | Solaris => Some (0, 0)
  end.

(** One step of goroutine [t] (mmap/mmap.go:45-86); [None] when it has to wait or has nothing to do.  [ok] is the outcome of a
    system call. *)
Definition mthread_step (pl : mplat) (page : Z) (s : mshared) (t : nat) (th : mthread) (ok : bool) : option (mshared * mthread) :=
  let go s p := Some (s, MTh (mtodo th) p (mlog th)) in
  let ret s c r := Some (s, MTh (mtodo th) MIdle ((c, r) :: mlog th)) in
  match mpos th with
  | MIdle =>
      match mtodo th, mmux s with
      | c :: r, None => Some (MSh (mmem s) (moff s) (mmax s) (Some t) (mdisk s), MTh r (MIn c) (mlog th))
      | _, _ => None
      end
  | MIn c =>
      if mfull s c then ret (MSh (mmem s) (moff s) (mmax s) None (mdisk s)) c MRFull else go s (MStore c (mwhere s c))
  | MStore c n => go (MSh (mmem s) (mnewoff s c) (mmax s) None (mdisk s)) (MSlice c n)
  | MSlice c n => if mslice_ok s c n then go s (MCopy c n 0) else ret s c MRPanic
  | MCopy c n j =>
      match mbytes c !! j with
      | Some b => go (MSh (<[Z.to_nat (n + Z.of_nat j) := b]> (mmem s)) (moff s) (mmax s) (mmux s) (mdisk s)) (MCopy c n (S j))
      | None => if msyncs c then go s (MSyncIn c n) else ret s c (mok c n)
      end
  | MSyncIn c n =>
      match msync_args pl page (Z.of_nat (length (mmem s))) n (mlen c) with
      | None => ret s c MRPanic
      | Some (start, len) => if ok then go s (MSyncing c n (Z.to_nat start) (Z.to_nat len)) else ret s c (mfail c n)
      end
  | MSyncing c n a l =>
      match l with
      | S l => match mmem s !! a with
               | Some b => go (MSh (mmem s) (moff s) (mmax s) (mmux s) (<[a := b]> (mdisk s))) (MSyncing c n (S a) l)
               | None => ret s c (mfail c n)
               end
      | O => ret s c (mok c n)
      end
  end.

(** A goroutine's turn (with the outcome of its system call), or the kernel writes byte [a] back. *)
Inductive mev := MTurn (t : nat) (ok : bool) | MWB (a : nat).
(** What happens at an event (mmap/mmap.go:45-86). *)
Definition mconf_step (pl : mplat) (page : Z) (c : mconf) (e : mev) : mconf :=
  match e with
  | MTurn t ok =>
      match mths c !! t with
      | None => c
      | Some th => match mthread_step pl page (msh c) t th ok with
                   | Some (s, th) => MConf s (<[t := th]> (mths c))
                   | None => c
                   end
      end
  | MWB a =>
      match mmem (msh c) !! a with
      | None => c
      | Some b => let s := msh c in MConf (MSh (mmem s) (moff s) (mmax s) (mmux s) (<[a := b]> (mdisk s))) (mths c)
      end
  end.
(** mmap/mmap.go:18-35 [NewMMAP] on a file with the given bytes: [None] when it returns an error. *)
Definition mnew (file : list Z) (start : Z) : option mshared :=
  if Z.of_nat (length file) =? 0 then None
  else if Z.of_nat (length file) <=? start then None
  else Some (MSh file start (Z.of_nat (length file)) None file).
(** Goroutines about to make their calls on a new Mmap (mmap/mmap.go:37). *)
Definition minit (s : mshared) (progs : list (list mcall)) : mconf := MConf s ((fun p => MTh p MIdle []) <$> progs).
(** Any interleaving of the goroutines and the kernel (mmap/mmap.go:45-86). *)
Definition mrun (pl : mplat) (page : Z) (c : mconf) (evs : list mev) : mconf := foldl (mconf_step pl page) c evs.
