(** Model of buffer/buffer.go and of the generic pool in pool/buffer/pool.go.

    A program is a list of operations.  It names the buffers it has got (handles) and its own slices by the order in which it got
    them; [None] as a handle is a nil *Buffer.  sync.Pool is a bag: Get takes any element or makes a new one, and elements may
    disappear at any time. *)
From stdpp Require Import list.
From Coq Require Import ZArith.
From Verif Require Import GoInt GoSlice.
Local Open Scope Z_scope.

(** Arrays; the Buffer objects (buffer/buffer.go:40, each a slice header); the pool's content (buffer/buffer.go:17); the object behind
    each handle; the program's own slices. *)
Record bst := BS { hp : list (list Z); objs : list slc; bag : list nat; hnd : list nat; sls : list slc }.
(** Before the first operation (buffer/buffer.go:17). *)
Definition binit : bst := BS [] [] [] [] [].
(** What an operation returns: a number, bytes, and nil, an error, io.EOF or a panic (buffer/buffer.go:46-117). *)
Inductive berr := ENil | EErr | EEof | EPanic.
(** See [berr] (buffer/buffer.go:46-117). *)
Record obs := Ob { onum : Z; obytes : list Z; oerr : berr }.
(** The operations; [grow] is what append leaves to spare.  buffer/buffer.go:22-117; [NMake], [NSub] and [NStore] are the program's own
    x := []byte{...}, y := x[lo:hi] and x[i] = v, and [PDrop] is sync.Pool losing an element. *)
Inductive bop :=
| NNew (cap : nat)
| NPool (pick : nat)
| NBySlice (e : nat)
| NMake (data : list Z) (extra : nat)
| NSub (e lo hi : nat)
| NStore (e i : nat) (v : Z)
| BWrite (b : option nat) (e grow : nat)
| BWriteString (b : option nat) (data : list Z) (grow : nat)
| BWriteByte (b : option nat) (c : Z) (grow : nat)
| BWriteInt32 (b : option nat) (i : Z) (grow : nat)
| BBytes (b : option nat)
| BString (b : option nat)
| BLen (b : option nat)
| BRead (b : option nat) (n : nat)
| BReset (b : option nat)
| BFree (b : option nat)
| PDrop (i : nat).

(** buffer/buffer.go:119-125 [int32ToBytes] of int32(i): byte(n >> (8 * (3 - i))). *)
Definition int32ToBytes (i : Z) : list Z := (fun k : nat => u8 (Z.shiftr (i32 i) (8 * (3 - Z.of_nat k)))) <$> seq 0 4.
(** What operations without a result return (buffer/buffer.go:42). *)
Definition ok : obs := Ob 0 [] ENil.
(** Object behind a handle (buffer/buffer.go:40). *)
Definition obj (s : bst) (b : nat) : option (nat * slc) :=
  match hnd s !! b with Some o => match objs s !! o with Some x => Some (o, x) | None => None end | None => None end.
(** *b = append( *b, bs...): buffer/buffer.go:48, 57, 66, 75. *)
Definition bappend (s : bst) (b : nat) (bs : list Z) (grow : nat) (r : obs) : bst * obs :=
  match obj s b with
  | Some (o, x) => let a := append (hp s) x bs grow in (BS a.1 (<[o := a.2]> (objs s)) (bag s) (hnd s) (sls s), r)
  | None => (s, ok)
  end.
(** A new object with a new array (buffer/buffer.go:18-19, 23-24, 28-29). *)
Definition bnew (s : bst) (cap : nat) : bst :=
  let m := mk (hp s) [] cap in BS m.1 (objs s ++ [m.2]) (bag s) (hnd s ++ [length (objs s)]) (sls s).
(** buffer/buffer.go:42-44 [Reset]: [:0]. *)
Definition cut (x : slc) : slc := SL (sarr x) (soff x) 0 (scap x).
(** One operation (buffer/buffer.go:17-117, pool/buffer/pool.go:35-52).  Unknown handles and slices do nothing: such programs do not
    exist.  The slice that Read fills is taken to be memory of its own; only the bytes it gets are shown.  A nil slice is an empty
    array of its own. *)
Definition bstep (s : bst) (op : bop) : bst * obs :=
  match op with
  | NNew cap => (bnew s cap, ok)
  | NPool pick =>
      match bag s !! pick with
      | Some o =>
          match objs s !! o with
          | Some x => (BS (hp s) (<[o := cut x]> (objs s)) (delete pick (bag s)) (hnd s ++ [o]) (sls s), ok)
          | None => (s, ok)
          end
      | None => (bnew s 0, ok)
      end
  | NBySlice e =>
      match sls s !! e with
      | Some x => (BS (hp s) (objs s ++ [x]) (bag s) (hnd s ++ [length (objs s)]) (sls s), ok)
      | None => (s, ok)
      end
  | NMake data extra => let m := mk (hp s) data extra in (BS m.1 (objs s) (bag s) (hnd s) (sls s ++ [m.2]), ok)
  | NSub e lo hi =>
      match sls s !! e with
      | Some x => (BS (hp s) (objs s) (bag s) (hnd s) (sls s ++ [SL (sarr x) (soff x + lo) (hi - lo) (scap x - lo)]), ok)
      | None => (s, ok)
      end
  | NStore e i v =>
      match sls s !! e with
      | Some x => if decide (i < slen x)%nat then (BS (wr (hp s) (sarr x) (soff x + i) [v]) (objs s) (bag s) (hnd s) (sls s), ok) else (s, Ob 0 [] EPanic)
      | None => (s, ok)
      end
  | BWrite None _ _ | BWriteString None _ _ | BWriteByte None _ _ | BWriteInt32 None _ _ => (s, Ob 0 [] EErr)
  | BWrite (Some b) e grow =>
      match sls s !! e with
      | Some y => let bs := rd (hp s) y in bappend s b bs grow (Ob (Z.of_nat (length bs)) [] ENil)
      | None => (s, ok)
      end
  | BWriteString (Some b) bs grow => bappend s b bs grow (Ob (Z.of_nat (length bs)) [] ENil)
  | BWriteByte (Some b) c grow => bappend s b [c] grow ok
  | BWriteInt32 (Some b) i grow => bappend s b (int32ToBytes i) grow (Ob 8 [] ENil)
  | BBytes None => let m := mk (hp s) [] 0 in (BS m.1 (objs s) (bag s) (hnd s) (sls s ++ [m.2]), ok)
  | BBytes (Some b) =>
      match obj s b with
      | Some (_, x) => (BS (hp s) (objs s) (bag s) (hnd s) (sls s ++ [x]), Ob 0 (rd (hp s) x) ENil)
      | None => (s, ok)
      end
  | BString None => (s, ok)
  | BString (Some b) => match obj s b with Some (_, x) => (s, Ob 0 (rd (hp s) x) ENil) | None => (s, ok) end
  | BLen None | BReset None => (s, Ob 0 [] EPanic)
  | BLen (Some b) => match obj s b with Some (_, x) => (s, Ob (Z.of_nat (slen x)) [] ENil) | None => (s, ok) end
  | BRead None n => (s, Ob 0 [] (if decide (n = 0)%nat then ENil else EEof))
  | BRead (Some b) n =>
      match obj s b with
      | Some (o, x) =>
          let k := Nat.min n (slen x) in
          let r := Ob (Z.of_nat k) (take k (rd (hp s) x)) ENil in
          if decide (k < slen x)%nat
          then (BS (hp s) (<[o := SL (sarr x) (soff x + k) (slen x - k) (scap x - k)]> (objs s)) (bag s) (hnd s) (sls s), r)
          else (s, r)
      | None => (s, ok)
      end
  | BReset (Some b) =>
      match obj s b with
      | Some (o, x) => (BS (hp s) (<[o := cut x]> (objs s)) (bag s) (hnd s) (sls s), ok)
      | None => (s, ok)
      end
  | BFree None => (s, ok)
  | BFree (Some b) => match hnd s !! b with Some o => (BS (hp s) (objs s) (bag s ++ [o]) (hnd s) (sls s), ok) | None => (s, ok) end
  | PDrop i => (BS (hp s) (objs s) (delete i (bag s)) (hnd s) (sls s), ok)
  end.
(** A program and everything it sees (buffer/buffer.go:17-117). *)
Fixpoint brun (s : bst) (ops : list bop) : bst * list obs :=
  match ops with
  | [] => (s, [])
  | op :: ops => let r := bstep s op in let q := brun r.1 ops in (q.1, r.2 :: q.2)
  end.
