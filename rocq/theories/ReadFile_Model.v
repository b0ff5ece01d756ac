(** util.ReadFile (util/encode.go:136-145) while others write to the file and cut it.

    golang.org/x/exp/mmap's Open, Len, ReadAt and Close are from their published source (mmap_unix.go): the size is asked for once, the mapping has this size, ReadAt copies.
    The mapping is shared: what it shows is what the file holds now, zeros between the end of the file and the end of its last page, and no memory behind that page (mmap(2);
    an access there is the signal SIGBUS, which ends a Go program).  copy may read the bytes in any order and some of them more than once.  Pages are of 4096 bytes.  A size
    beyond int, a failing mmap call and special files are not modelled. *)
From Coq Require Import ZArith List Bool.
Import ListNotations.
Local Open Scope Z_scope.

(** What the others do to the file, and one byte read by copy (util/encode.go:140). *)
Inductive event := Write (off : nat) (bs : list Z) | Truncate (n : nat) | Copy (k : nat).
(** pwrite(2): a gap is filled with zeros, no bytes have no effect (util/encode.go:137: the file). *)
Definition pwrite (c : list Z) (off : nat) (bs : list Z) : list Z :=
  match bs with [] => c | _ => firstn off (c ++ repeat 0 (off - length c)) ++ bs ++ skipn (off + length bs) c end.
(** ftruncate(2): the file is cut or filled with zeros (util/encode.go:137: the file). *)
Definition ftruncate (c : list Z) (n : nat) : list Z := firstn n c ++ repeat 0 (n - length c).
(** The size of a page. *)
Definition pageSize : Z := 4096.
(** The byte that the mapping shows, [None] for SIGBUS (golang.org/x/exp/mmap mmap_unix.go, r.data; util/encode.go:140). *)
Definition peek (c : list Z) (k : nat) : option Z :=
  match nth_error c k with
  | Some b => Some b
  | None => if Z.of_nat k / pageSize * pageSize <? Z.of_nat (length c) then Some 0 else None
  end.
(** bs[k] = b (util/encode.go:140). *)
Fixpoint set (k : nat) (b : Z) (l : list (option Z)) : list (option Z) :=
  match l, k with
  | [], _ => []
  | _ :: r, O => Some b :: r
  | x :: r, S k => x :: set k b r
  end.
(** The bytes when all are there. *)
Fixpoint filled (l : list (option Z)) : option (list Z) :=
  match l with
  | [] => Some []
  | None :: _ => None
  | Some b :: r => option_map (cons b) (filled r)
  end.
(** What a call comes to: bytes with a nil error, an error of os.Open, the end of the program, or it still runs (util/encode.go:136-145). *)
Inductive outcome := Bytes (bs : list Z) | NoFile | Killed | Running.
(** The copy inside ReadAt: [c] is in the file, [bs] has been read (golang.org/x/exp/mmap mmap_unix.go, ReadAt; util/encode.go:139-140). *)
Fixpoint reading (es : list event) (c : list Z) (bs : list (option Z)) : outcome :=
  match filled bs with
  | Some r => Bytes r
  | None =>
      match es with
      | [] => Running
      | Write off w :: es => reading es (pwrite c off w) bs
      | Truncate n :: es => reading es (ftruncate c n) bs
      | Copy k :: es =>
          if (k <? length bs)%nat then match peek c k with Some b => reading es c (set k b bs) | None => Killed end
          else reading es c bs
      end
  end.
(** util/encode.go:136-145 [ReadFile]: the file when Open asks for its size, and what happens from then on. *)
Definition ReadFile (file : option (list Z)) (es : list event) : outcome :=
  match file with
  | None => NoFile
  | Some c => reading es c (repeat None (length c))
  end.
