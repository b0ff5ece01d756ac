(** Model of fastio/file.go with fastio/util.go: a File used by one goroutine at a time.

    os.File is implemented from its published behaviour on a regular file: the bytes, the position, and whether it was opened for appending.  With no other call in
    flight WriteSync and Write of fastio/fw.go take their direct way (fastio/fw.go:43-53, 79-88).  Simplification: the operating system reports no errors, nobody else
    writes the file, and sizes stay below 2^63.  Calls at the same time are in Fastio_Model.v. *)
From stdpp Require Import list.
From Coq Require Import ZArith.
Local Open Scope Z_scope.

(** os.File (fastio/file.go:24,43). *)
Record osfile := OsFile { contents : list Z; pos : nat; appendMode : bool; closed : bool }.
(** Bytes written at a place, with zeros in a gap before it (pwrite; fastio/file.go:49). *)
Definition overwrite (f : list Z) (at_ : nat) (bs : list Z) : list Z :=
  match bs with [] => f | _ => take at_ (f ++ replicate (at_ - length f) 0) ++ bs ++ drop (at_ + length bs) f end.
(** os.File.Write (os; fastio/fw.go:50,85): None when closed. *)
Definition os_Write (o : osfile) (bs : list Z) : option (osfile * Z) :=
  if closed o then None
  else let at_ := if appendMode o then length (contents o) else pos o in
       let p := match bs with [] => pos o | _ => at_ + length bs end%nat in
       Some (OsFile (overwrite (contents o) at_ bs) p (appendMode o) false, Z.of_nat (length bs)).
(** os.File.WriteAt (os; fastio/file.go:49): None is an error; files opened for appending refuse it, and so do negative offsets. *)
Definition os_WriteAt (o : osfile) (bs : list Z) (off : Z) : option (osfile * Z) :=
  if closed o then None
  else if appendMode o then None
  else if off <? 0 then None
  else Some (OsFile (overwrite (contents o) (Z.to_nat off) bs) (pos o) false false, Z.of_nat (length bs)).
(** os.File.Read (os; fastio/file.go:65) into [n] bytes: the bytes read and whether the error is not nil (io.EOF, or closed). *)
Definition os_Read (o : osfile) (n : nat) : osfile * (list Z * bool) :=
  if closed o then (o, ([], true))
  else let r := take n (drop (pos o) (contents o)) in
       (OsFile (contents o) (pos o + length r) (appendMode o) false, (r, negb (n =? 0)%nat && (length r =? 0)%nat)).
(** os.File.ReadAt (os; fastio/file.go:61): the bytes and whether the error is not nil (io.EOF when there are fewer, negative offset, or closed). *)
Definition os_ReadAt (o : osfile) (n : nat) (off : Z) : list Z * bool :=
  if closed o then ([], true)
  else if off <? 0 then ([], true)
  else let r := take n (drop (Z.to_nat off) (contents o)) in (r, (length r <? n)%nat).

(** fastio/file.go:41-46 [fileHandle]: the file and the offset. *)
Record handle := Handle { hfile : osfile; hoffset : Z }.
(** fastio/file.go:32-39 [New] (and fastio/util.go:15-17 [offset]): the position goes to the end. *)
Definition New (o : osfile) : option handle :=
  if closed o then None else Some (Handle (OsFile (contents o) (length (contents o)) (appendMode o) false) (Z.of_nat (length (contents o)))).
(** fastio/file.go:23-30 [Open] of a file with these bytes (none when it is created). *)
Definition Open (bytes : list Z) : option handle := New (OsFile bytes 0 true false).
(** The methods (fastio/file.go:14-21) and their results: a number or bytes, and whether the error is not nil. *)
Inductive fop := FWrite (bs : list Z) | FWriteSync (bs : list Z) | FWriteAt (bs : list Z) (off : Z) | FRead (n : nat) | FReadAt (n : nat) (off : Z) | FClose.
(** See [fop] (fastio/file.go:14-21). *)
Inductive fres := FNum (n : Z) (err : bool) | FBytes (bs : list Z) (err : bool) | FErr (err : bool).
(** One call (fastio/file.go:48-71; fastio/fw.go:50-53, 85-88). *)
Definition fstep (h : handle) (op : fop) : handle * fres :=
  match op with
  | FWrite bs =>
      match os_Write (hfile h) bs with
      | Some (o, n) => (Handle o (if 0 <? n then hoffset h + n else hoffset h), FNum n false)
      | None => (h, FNum 0 true)
      end
  | FWriteSync bs =>
      match os_Write (hfile h) bs with
      | Some (o, n) => (Handle o (hoffset h + n), FNum (hoffset h) false)
      | None => (h, FNum (hoffset h) true)
      end
  | FWriteAt bs off =>
      match os_WriteAt (hfile h) bs off with
      | Some (o, n) => (Handle o (hoffset h), FNum n false)
      | None => (h, FNum 0 true)
      end
  | FRead n => let '(o, (bs, e)) := os_Read (hfile h) n in (Handle o (hoffset h), FBytes bs e)
  | FReadAt n off => let '(bs, e) := os_ReadAt (hfile h) n off in (h, FBytes bs e)
  | FClose => (Handle (OsFile (contents (hfile h)) (pos (hfile h)) (appendMode (hfile h)) true) (hoffset h), FErr (closed (hfile h)))
  end.
(** A history of calls: the results in order (fastio/file.go:48-71). *)
Fixpoint frun (h : handle) (ops : list fop) : handle * list fres :=
  match ops with [] => (h, []) | op :: ops => let '(h1, r) := fstep h op in let '(h2, rs) := frun h1 ops in (h2, r :: rs) end.
