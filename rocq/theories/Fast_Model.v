(** fast.StringToSlice (fast/fast.go:15-17) among what a program does with strings and byte slices.

    Memory is one row of bytes, each writable or not; addresses are places in it and new memory is at its end (the garbage collector and the reuse of memory are not
    modelled).  A string is where it begins and how long it is; a slice has a capacity too.  Literals lie in memory that cannot be written, as the linker puts them.
    unsafe.StringData and unsafe.Slice, slicing, append, conversion and assignment to an element are from the language specification. *)
From Coq Require Import ZArith List Bool Arith.
Import ListNotations.

(** A string (fast/fast.go:15, the argument). *)
Record gostring := MkString { sptr : nat; slen : nat }.
(** A slice (fast/fast.go:15, the result). *)
Record goslice := MkSlice { vptr : nat; vlen : nat; vcap : nat }.
(** The memory and the values so far; the newest is the last (fast/fast.go:15). *)
Record state := MkState { mem : list (Z * bool); strings : list gostring; slices : list goslice }.
(** What a program does (fast/fast.go:15-17: callers): StringToSlice(s); a literal; a string made at run time; s[i:j]; string(v); v[i:]; v[i:j]; append(v, xs...), where a new array
    gets room for [extra] more bytes; v[i] = b. *)
Inductive op :=
| ToSlice (s : nat) | Literal (bs : list Z) | Make (bs : list Z) | Sub (s i j : nat) | ToString (v : nat)
| From (v i : nat) | Reslice (v i j : nat) | Append (v : nat) (xs : list Z) (extra : nat) | Put (v i : nat) (b : Z).
(** A step ends in a new state, a panic, or a fault that ends the program (fast/fast.go:15-17: callers). *)
Inductive result := Ok (st : state) | Panic | Fault.

(** fast/fast.go:15-17 [StringToSlice]: unsafe.Slice of unsafe.StringData, length and capacity len(s). *)
Definition StringToSlice (s : gostring) : goslice := MkSlice (sptr s) (slen s) (slen s).
(** The bytes from [p] on (fast/fast.go:16). *)
Definition bytes_at (m : list (Z * bool)) (p n : nat) : list Z := map fst (firstn n (skipn p m)).
(** Memory with other bytes from [p] on; what can be written stays so (fast/fast.go:15-17: callers). *)
Fixpoint overwrite (m : list (Z * bool)) (p : nat) (bs : list Z) : list (Z * bool) :=
  match m, p, bs with
  | m, _, [] => m
  | [], _, _ => []
  | (_, w) :: m, O, b :: bs => (b, w) :: overwrite m O bs
  | c :: m, S p, bs => c :: overwrite m p bs
  end.
(** Can all of these bytes be written? *)
Definition writable (m : list (Z * bool)) (p n : nat) : bool := forallb snd (firstn n (skipn p m)).
(** One step (fast/fast.go:15-17: callers; the language specification). *)
Definition step (st : state) (o : op) : result :=
  let '(MkState m ss vs) := st in
  match o with
  | ToSlice s => match nth_error ss s with Some s => Ok (MkState m ss (vs ++ [StringToSlice s])) | None => Panic end
  | Literal bs => Ok (MkState (m ++ map (fun b => (b, false)) bs) (ss ++ [MkString (length m) (length bs)]) vs)
  | Make bs => Ok (MkState (m ++ map (fun b => (b, true)) bs) (ss ++ [MkString (length m) (length bs)]) vs)
  | Sub s i j => match nth_error ss s with Some s => if (i <=? j) && (j <=? slen s) then Ok (MkState m (ss ++ [MkString (sptr s + i) (j - i)]) vs) else Panic | None => Panic end
  | ToString v => match nth_error vs v with Some v => Ok (MkState (m ++ map (fun b => (b, true)) (bytes_at m (vptr v) (vlen v))) (ss ++ [MkString (length m) (vlen v)]) vs) | None => Panic end
  | From v i => match nth_error vs v with Some v => if i <=? vlen v then Ok (MkState m ss (vs ++ [MkSlice (vptr v + i) (vlen v - i) (vcap v - i)])) else Panic | None => Panic end
  | Reslice v i j => match nth_error vs v with Some v => if (i <=? j) && (j <=? vcap v) then Ok (MkState m ss (vs ++ [MkSlice (vptr v + i) (j - i) (vcap v - i)])) else Panic | None => Panic end
  | Append v xs extra =>
      match nth_error vs v with
      | Some v =>
          if vlen v + length xs <=? vcap v then
            if writable m (vptr v + vlen v) (length xs) then Ok (MkState (overwrite m (vptr v + vlen v) xs) ss (vs ++ [MkSlice (vptr v) (vlen v + length xs) (vcap v)])) else Fault
          else Ok (MkState (m ++ map (fun b => (b, true)) (bytes_at m (vptr v) (vlen v) ++ xs ++ repeat 0%Z extra)) ss (vs ++ [MkSlice (length m) (vlen v + length xs) (vlen v + length xs + extra)]))
      | None => Panic
      end
  | Put v i b =>
      match nth_error vs v with
      | Some v => if i <? vlen v then if writable m (vptr v + i) 1 then Ok (MkState (overwrite m (vptr v + i) [b]) ss vs) else Fault else Panic
      | None => Panic
      end
  end.
(** A program from the beginning (fast/fast.go:15-17: callers). *)
Fixpoint run (st : state) (os : list op) : result := match os with [] => Ok st | o :: os => match step st o with Ok st => run st os | r => r end end.
(** No values, no memory. *)
Definition start : state := MkState [] [] [].
