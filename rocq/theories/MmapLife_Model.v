(** Model of the life of a mapping: mmap/mmap.go:18-35 [NewMMAP] to the calls that give the mapping back, 87-117 [Unmap],
    [UnmapAndCloseFile], [Flush], [Bytes], [FileSize] and [Close], together with the writing calls of [Mmap_Model].

    github.com/edsrzf/mmap-go is not part of /repo; its Unix behaviour, as published, is built in: Map asks the kernel for one shared
    mapping of the whole file; Flush is msync of the whole slice; Unmap hands the slice to munmap and sets it to nil whatever munmap
    answers; munmap of an empty slice is refused with EINVAL by golang.org/x/sys/unix.  Windows and Solaris are not modelled here. *)
From stdpp Require Import list.
From Coq Require Import ZArith Bool.
From Verif Require Import GoInt Mmap_Model.
Local Open Scope Z_scope.

(** The first part: calls made one after another. *)

(** The file, the disk and one Mmap (mmap/mmap.go:37-43).  [lfile]: the bytes of the file as every process reads them, which is also
    what a shared mapping shows; [ldisk]: what a crash of the machine leaves; [lhdr]: t._mmap is not nil; [loff], [lmax]: offset and
    maxsize; [lmaps]: how many mappings the kernel holds for this process; [lopen]: the os.File has not been closed. *)
Record life := Life {
  lfile : list Z; ldisk : list Z; lhdr : bool; loff : Z; lmax : Z; lmaps : nat; lopen : bool
}.
(** The calls of an Mmap: mmap/mmap.go:45-86 (the four that write), 100 [Flush], 88 [Unmap], 92 [UnmapAndCloseFile], 112 [Close],
    104 [Bytes], 108 [FileSize]. *)
Inductive lcall := LWrite (c : mcall) | LFlush | LUnmap | LUnmapClose | LClose | LBytes | LFileSize.
(** Their results: of a writing call; nil; an error of the system; the bytes; the size (mmap/mmap.go:45-117). *)
Inductive lres := LR (r : mres) | LNil | LSysErr | LSlice (bs : list Z) | LSize (n : Z).
(** What happens next: a call, with the answers the system gives if asked for msync, munmap and close in this call; or the kernel
    writes byte [a] to disk on its own account. *)
Inductive levent := LCall (c : lcall) (msync munmap fclose : bool) | LWB (a : nat).

(** The bytes behind t._mmap: none when it is nil (mmap/mmap.go:39). *)
Definition lslice (s : life) : list Z := if lhdr s then lfile s else [].
(** The Mmap as the writing calls see it (mmap/mmap.go:37-43). *)
Definition lview (s : life) : mshared := MSh (lslice s) (loff s) (lmax s) None (ldisk s).
(** copy(t._mmap[n:], bs) (mmap/mmap.go:55,77). *)
Definition lput (m : list Z) (n : nat) (bs : list Z) : list Z := take n m ++ bs ++ drop (n + length bs) m.
(** msync of [len] bytes at [start] (mmap/sync_unix.go:28). *)
Definition lsync (disk m : list Z) (start len : nat) : list Z := take start disk ++ take len (drop start m) ++ drop (start + len) disk.

(** Append, AppendSync, WriteAt and WriteAtSync, made while nothing else runs (mmap/mmap.go:45-86, mmap/sync_unix.go:20-34). *)
Definition lwrite (page : Z) (s : life) (c : mcall) (msync : bool) : life * mres :=
  let v := lview s in
  if mfull v c then (s, MRFull)
  else
    let n := mwhere v c in
    let s := Life (lfile s) (ldisk s) (lhdr s) (mnewoff v c) (lmax s) (lmaps s) (lopen s) in
    if mslice_ok v c n then
      let f := if lhdr s then lput (lfile s) (Z.to_nat n) (mbytes c) else lfile s in
      let s := Life f (ldisk s) (lhdr s) (loff s) (lmax s) (lmaps s) (lopen s) in
      if msyncs c then
        match msync_args Unix page (Z.of_nat (length (lslice s))) n (mlen c) with
        | None => (s, MRPanic)
        | Some (start, len) =>
            if msync then (Life f (lsync (ldisk s) f (Z.to_nat start) (Z.to_nat len)) (lhdr s) (loff s) (lmax s) (lmaps s) (lopen s), mok c n)
            else (s, mfail c n)
        end
      else (s, mok c n)
    else (s, MRPanic).

(** mmap/mmap.go:100-102 [Flush]: msync of the slice; of a nil slice it is msync of no bytes, which the kernel may take or refuse. *)
Definition lflush (s : life) (msync : bool) : life * bool :=
  if msync then (Life (lfile s) (if lhdr s then lfile s else ldisk s) (lhdr s) (loff s) (lmax s) (lmaps s) (lopen s), true)
  else (s, false).
(** mmap/mmap.go:88-90 [Unmap]: the slice is nil afterwards, whatever munmap said. *)
Definition lunmap (s : life) (munmap : bool) : life * bool :=
  if lhdr s then
    (Life (lfile s) (ldisk s) false (loff s) (lmax s) (if munmap then pred (lmaps s) else lmaps s) (lopen s), munmap)
  else (s, false).
(** [file.Close] (mmap/mmap.go:95): an error when it is closed already. *)
Definition lfclose (s : life) (fclose : bool) : life * bool :=
  if lopen s then (Life (lfile s) (ldisk s) (lhdr s) (loff s) (lmax s) (lmaps s) false, fclose) else (s, false).
(** nil or an error (mmap/mmap.go:88-117). *)
Definition lerr (ok : bool) : lres := if ok then LNil else LSysErr.

(** One call (mmap/mmap.go:45-117). *)
Definition lcall_step (page : Z) (s : life) (c : lcall) (msync munmap fclose : bool) : life * lres :=
  match c with
  | LWrite c => let '(s, r) := lwrite page s c msync in (s, LR r)
  | LFlush => let '(s, ok) := lflush s msync in (s, lerr ok)
  | LUnmap => let '(s, ok) := lunmap s munmap in (s, lerr ok)
  | LUnmapClose =>
      let '(s, ok) := lunmap s munmap in
      if ok then let '(s, ok) := lfclose s fclose in (s, lerr ok) else (s, LSysErr)
  | LBytes => (s, LSlice (lslice s))
  | LFileSize => (s, LSize (lmax s))
  | LClose =>
      let '(s, ok) := lflush s msync in
      if ok then let '(s, ok) := lunmap s munmap in (s, lerr ok) else (s, LSysErr)
  end.
(** One event; the log keeps calls and results, latest first (mmap/mmap.go:45-117). *)
Definition levent_step (page : Z) (x : life * list (lcall * lres)) (e : levent) : life * list (lcall * lres) :=
  let '(s, log) := x in
  match e with
  | LCall c a b d => let '(s, r) := lcall_step page s c a b d in (s, (c, r) :: log)
  | LWB a =>
      match lfile s !! a with
      | Some b => (Life (lfile s) (<[a := b]> (ldisk s)) (lhdr s) (loff s) (lmax s) (lmaps s) (lopen s), log)
      | None => (s, log)
      end
  end.
(** A history of an Mmap (mmap/mmap.go:45-117). *)
Definition lrun (page : Z) (s : life) (es : list levent) : life * list (lcall * lres) := foldl (levent_step page) (s, []) es.

(** mmap/mmap.go:18-35 [NewMMAP] in a process holding [maps] mappings, on an open file with the given bytes; [stat], [map]: the
    answers of Stat and mmap.  The Mmap, or [None] for an error; and the number of mappings held afterwards: the mapping is made at
    line 27, before the test of line 31. *)
Definition lnew (file disk : list Z) (maps : nat) (start : Z) (stat map : bool) : option life * nat :=
  if negb stat then (None, maps)
  else if Z.of_nat (length file) =? 0 then (None, maps)
  else if negb map then (None, maps)
  else if Z.of_nat (length file) <=? start then (None, S maps)
  else (Some (Life file disk true start (Z.of_nat (length file)) (S maps) true), S maps).

(** The second part: the mapping is given back while other goroutines use it.  Bytes and offsets do not matter here, only who holds
    a slice of the mapping and whether the mapping is there. *)

(** What goroutines do: a writing call of [k] bytes (mmap/mmap.go:45,66); give the mapping back (88, called by 92 and 112);
    Bytes, whose result the goroutine keeps (104); read a byte of what Bytes returned. *)
Inductive ucall := UWrite (k : nat) | URelease | UBytes | UTouch.
(** How a call ended: well, with an error, by a panic. *)
Inductive ures := UOk | UErr | UPanic.
(** Where a goroutine is: between calls; copying into the mapping with [k] bytes to go (mmap/mmap.go:55,77); after munmap with its
    answer, about to set the slice to nil (mmap/mmap.go:89). *)
Inductive upc := UIdle | UCopy (k : nat) | UNil (ok : bool).
(** A goroutine: calls to make, position, whether it keeps a slice from Bytes, calls with results, latest first (mmap/mmap.go:45-117). *)
Record uthread := UTh { utodo : list ucall; upos : upc; ukeeps : bool; ulog : list (ucall * ures) }.
(** [umap]: the kernel has the mapping; [uhdr]: t._mmap is not nil; [udead]: the process was killed by a memory fault, which Go
    cannot recover from (mmap/mmap.go:37-43). *)
Record uconf := UConf { umap : bool; uhdr : bool; udead : bool; uths : list uthread }.

(** One step of goroutine [th] (mmap/mmap.go:45-117): the new [umap], [uhdr], [udead] and goroutine.  [ok]: the answer of munmap. *)
Definition uthread_step (m h : bool) (th : uthread) (ok : bool) : option (bool * bool * bool * uthread) :=
  match upos th with
  | UIdle =>
      match utodo th with
      | [] => None
      (* mmap/mmap.go:55: the slice expression reads t._mmap; out of range panics if it is nil *)
      | UWrite k :: r => if h then Some (m, h, false, UTh r (UCopy k) (ukeeps th) (ulog th))
                         else Some (m, h, false, UTh r UIdle (ukeeps th) ((UWrite k, UPanic) :: ulog th))
      (* mmap/mmap.go:89: munmap is refused for a nil slice and for a mapping that has been given back *)
      | URelease :: r => if h && m then Some (negb ok, h, false, UTh r (UNil ok) (ukeeps th) (ulog th))
                         else Some (m, h, false, UTh r (UNil false) (ukeeps th) (ulog th))
      | UBytes :: r => Some (m, h, false, UTh r UIdle h ((UBytes, UOk) :: ulog th))
      | UTouch :: r => if ukeeps th then Some (m, h, negb m, UTh r UIdle (ukeeps th) ((UTouch, UOk) :: ulog th))
                       else Some (m, h, false, UTh r UIdle (ukeeps th) ((UTouch, UPanic) :: ulog th))
      end
  | UCopy (S k) => Some (m, h, negb m, UTh (utodo th) (UCopy k) (ukeeps th) (ulog th))
  | UCopy O => Some (m, h, false, UTh (utodo th) UIdle (ukeeps th) ((UWrite 0, UOk) :: ulog th))
  | UNil ok => Some (m, false, false, UTh (utodo th) UIdle (ukeeps th) ((URelease, if ok then UOk else UErr) :: ulog th))
  end.
(** Goroutine [t] moves, unless the process is dead (mmap/mmap.go:45-117). *)
Definition uconf_step (c : uconf) (e : nat * bool) : uconf :=
  if udead c then c else
  match uths c !! e.1 with
  | None => c
  | Some th => match uthread_step (umap c) (uhdr c) th e.2 with
               | None => c
               | Some (m, h, d, th) => UConf m h d (<[e.1 := th]> (uths c))
               end
  end.
(** Any interleaving, from an Mmap just made (mmap/mmap.go:34). *)
Definition uinit (progs : list (list ucall)) : uconf := UConf true true false ((fun p => UTh p UIdle false []) <$> progs).
(** The configuration after a schedule (mmap/mmap.go:45-117). *)
Definition urun (c : uconf) (es : list (nat * bool)) : uconf := foldl uconf_step c es.
