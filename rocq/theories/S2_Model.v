(** Model of compress/compress.go:89-92: UnSnappy.

    snappy.Decode of github.com/klauspost/compress/snappy is s2.Decode (snappy/decode.go), which is implemented here from its published Go code
    (s2/decode.go, s2/decode_other.go); the assembler versions do the same.  The loop that reads without looking at the end of the input and
    the one for the last bytes of it are one loop here. *)
From stdpp Require Import list.
From Coq Require Import ZArith.
From Verif Require Import GoInt Snappy_Model.
Local Open Scope Z_scope.

(** s2Decode (s2/decode_other.go; compress/compress.go:90): [src] is what is left of the input, [dst] the bytes written so far of [dLen], [offset] that of the last
    copy, 0 at first; None is an error. *)
Fixpoint s2Decode (fuel : nat) (dLen offset : Z) (src dst : list Z) : option (list Z) :=
  match fuel with
  | O => None
  | S fuel =>
      let d := Z.of_nat (length dst) in
      let literal x src :=
        let l := x + 1 in
        if (dLen - d <? l) || (Z.of_nat (length src) <? l) then None
        else s2Decode fuel dLen offset (drop (Z.to_nat l) src) (dst ++ take (Z.to_nat l) src) in
      let copy l offset src :=
        if (offset <=? 0) || (d <? offset) || (dLen - d <? l) then None
        else s2Decode fuel dLen offset src (copyBack (Z.to_nat l) (Z.to_nat offset) dst) in
      match src with
      | [] => if d =? dLen then Some dst else None
      | t :: src =>
          let tag := Z.land t 3 in
          if tag =? 0 then
            let x := Z.shiftr t 2 in
            if x <? 60 then literal x src
            else let n := Z.to_nat (x - 59) in
                 if (length src <? n)%nat then None else literal (le (take n src)) (drop n src)
          else if tag =? 1 then
            match src with
            | b :: src =>
                let toffset := Z.lor (Z.shiftl (Z.land t 224) 3) b in
                let x := Z.land (Z.shiftr t 2) 7 in
                if toffset =? 0 then
                  (* repeat the last offset *)
                  let ext n base := if (length src <? n)%nat then None else copy (le (take n src) + base + 4) offset (drop n src) in
                  if x =? 5 then ext 1%nat 4
                  else if x =? 6 then ext 2%nat 256
                  else if x =? 7 then ext 3%nat 65536
                  else copy (x + 4) offset src
                else copy (x + 4) toffset src
            | _ => None
            end
          else
            let n := if tag =? 2 then 2%nat else 4%nat in
            if (length src <? n)%nat then None else copy (1 + Z.shiftr t 2) (le (take n src)) (drop n src)
      end
  end.
(** compress/compress.go:89-92 [UnSnappy]: None is an error (decodedLen is the same in s2/decode.go). *)
Definition UnSnappy (src : list Z) : option (list Z) :=
  match decodedLen src with
  | Some (dLen, s) => s2Decode (S (length src)) dLen 0 (drop (Z.to_nat s) src) []
  | None => None
  end.
(** The bytes that Decode allocates for its result before it looks at anything but the length (make in Decode of snappy/decode.go and of s2/decode.go;
    util/compress.go:81, compress/compress.go:90). *)
Definition allocated (src : list Z) : Z := match decodedLen src with Some (dLen, _) => dLen | None => 0 end.
