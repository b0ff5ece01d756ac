(** What Buffers look like to a program that keeps to the rules: each buffer it gets is a fresh sequence of bytes of its own, and
    slices are values.  No arrays, no capacities, no pool. *)
From stdpp Require Import list.
From Coq Require Import ZArith.
From Verif Require Import GoInt Num_Spec Buffer_Model.
Local Open Scope Z_scope.

(** A buffer: its bytes, whether it has not been freed yet, and how many times it has been reset. *)
Record vbuf := VB { vbytes : list Z; vlive : bool; vresets : nat }.
(** A slice of the program: its bytes, and where it comes from: made by the program, or [Bytes] of a buffer, at which reset count. *)
Record vsl := VS { vval : list Z; vfrom : option (nat * nat) }.
Record vst := V { vbufs : list vbuf; vsls : list vsl }.
Definition vinit : vst := V [] [].

(** The four bytes of int32(i), most significant first. *)
Definition be4 (i : Z) (bs : list Z) : Prop := length bs = 4%nat /\ is_bytes bs /\ be_value bs = i mod 2 ^ 32.

(** A slice may be used as long as the buffer it comes from has not been reset or freed since. *)
Definition usable (v : vst) (y : vsl) : bool :=
  match vfrom y with
  | None => true
  | Some (b, n) => match vbufs v !! b with Some x => vlive x && bool_decide (vresets x = n) | None => false end
  end.
(** The bytes of a buffer one may use. *)
Definition vlook (v : vst) (b : nat) : option vbuf := match vbufs v !! b with Some x => if vlive x then Some x else None | None => None end.
Definition vset (v : vst) (b : nat) (x : vbuf) : vst := V (<[b := x]> (vbufs v)) (vsls v).
Definition vwrite (v : vst) (b : nat) (bs : list Z) (r : obs) : option (vst * obs) :=
  match vlook v b with Some x => Some (vset v b (VB (vbytes x ++ bs) true (vresets x)), r) | None => None end.
(** One operation; [None] when it breaks the rules: a freed buffer or a stale slice is used, a slice that belongs to a buffer is
    stored to, or a slice is shared (NewBufferBySlice and slicing are outside the rules).  [enc] gives the bytes of WriteInt32. *)
Definition vstep (enc : Z -> list Z) (v : vst) (op : bop) : option (vst * obs) :=
  match op with
  | NNew _ | NPool _ => Some (V (vbufs v ++ [VB [] true 0]) (vsls v), ok)
  | NBySlice _ | NSub _ _ _ => None
  | NMake data _ => Some (V (vbufs v) (vsls v ++ [VS data None]), ok)
  | NStore e i x =>
      match vsls v !! e with
      | Some (VS l None) => if decide (i < length l)%nat then Some (V (vbufs v) (<[e := VS (<[i := x]> l) None]> (vsls v)), ok) else Some (v, Ob 0 [] EPanic)
      | _ => None
      end
  | BWrite None _ _ | BWriteString None _ _ | BWriteByte None _ _ | BWriteInt32 None _ _ => Some (v, Ob 0 [] EErr)
  | BWrite (Some b) e _ =>
      match vsls v !! e with
      | Some y => if usable v y then vwrite v b (vval y) (Ob (Z.of_nat (length (vval y))) [] ENil) else None
      | None => None
      end
  | BWriteString (Some b) bs _ => vwrite v b bs (Ob (Z.of_nat (length bs)) [] ENil)
  | BWriteByte (Some b) c _ => vwrite v b [c] ok
  | BWriteInt32 (Some b) i _ => vwrite v b (enc i) (Ob 8 [] ENil)
  | BBytes None => Some (V (vbufs v) (vsls v ++ [VS [] None]), ok)
  | BBytes (Some b) =>
      match vlook v b with
      | Some x => Some (V (vbufs v) (vsls v ++ [VS (vbytes x) (Some (b, vresets x))]), Ob 0 (vbytes x) ENil)
      | None => None
      end
  | BString None => Some (v, ok)
  | BString (Some b) => match vlook v b with Some x => Some (v, Ob 0 (vbytes x) ENil) | None => None end
  | BLen None | BReset None => Some (v, Ob 0 [] EPanic)
  | BLen (Some b) => match vlook v b with Some x => Some (v, Ob (Z.of_nat (length (vbytes x))) [] ENil) | None => None end
  | BRead None n => Some (v, Ob 0 [] (if decide (n = 0)%nat then ENil else EEof))
  | BRead (Some b) n =>
      (* what Read really does: the first bytes, which are taken out of the buffer unless they are all of it *)
      match vlook v b with
      | Some x =>
          let k := Nat.min n (length (vbytes x)) in
          Some (if decide (k < length (vbytes x))%nat then vset v b (VB (drop k (vbytes x)) true (vresets x)) else v,
                Ob (Z.of_nat k) (take k (vbytes x)) ENil)
      | None => None
      end
  | BReset (Some b) => match vlook v b with Some x => Some (vset v b (VB [] true (S (vresets x))), ok) | None => None end
  | BFree None => Some (v, ok)
  | BFree (Some b) => match vlook v b with Some x => Some (vset v b (VB (vbytes x) false (vresets x)), ok) | None => None end
  | PDrop _ => Some (v, ok)
  end.
(** What the program sees, if it keeps to the rules. *)
Fixpoint vrun (enc : Z -> list Z) (v : vst) (ops : list bop) : option (vst * list obs) :=
  match ops with
  | [] => Some (v, [])
  | op :: ops =>
      match vstep enc v op with
      | None => None
      | Some (v, o) => match vrun enc v ops with None => None | Some (v, os) => Some (v, o :: os) end
      end
  end.

(** Writes to one buffer, and what they leave: everything since the last Reset, in order. *)
Inductive wop := WStr (bs : list Z) (grow : nat) | WByte (c : Z) (grow : nat) | WInt (i : Z) (grow : nat) | WReset.
Definition on (b : nat) (w : wop) : bop :=
  match w with WStr bs g => BWriteString (Some b) bs g | WByte c g => BWriteByte (Some b) c g | WInt i g => BWriteInt32 (Some b) i g | WReset => BReset (Some b) end.
Definition since (enc : Z -> list Z) (ws : list wop) : list Z :=
  fold_left (fun acc w => match w with WStr bs _ => acc ++ bs | WByte c _ => acc ++ [c] | WInt i _ => acc ++ enc i | WReset => [] end) ws [].

(** What a reader of [l] should get: the bytes once, in order, then io.EOF, whatever the sizes of the reads. *)
Fixpoint proper_reads (l : list Z) (ns : list nat) : list obs :=
  match ns with
  | [] => []
  | n :: ns =>
      Ob (Z.of_nat (Nat.min n (length l))) (take n l) (if decide (n <> 0%nat /\ l = []) then EEof else ENil) :: proper_reads (drop n l) ns
  end.
