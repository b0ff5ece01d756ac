(** Model of CRC32 and CRC64 in util/encode.go: the portable code of hash/crc32 and hash/crc64 (Go standard library)
    that they call, with its tables and its eight-bytes-at-a-time fast path.  On amd64, arm64, s390x and ppc64le
    hash/crc32 has assembly for the same function, which is not modelled. *)
From Coq Require Import ZArith List.
From Verif Require Import GoInt.
Import ListNotations.
Local Open Scope Z_scope.

(** crc32.IEEE, the reversed polynomial (util/encode.go:69). *)
Definition ieee_poly : Z := 0xEDB88320.
(** crc64.ECMA, the reversed polynomial (util/encode.go:73). *)
Definition ecma_poly : Z := 0xC96C5795D7870F42.

(** One turn of the inner loop of simplePopulateTable / crc64.makeTable (called from util/encode.go:69,73):
    [if crc&1 == 1 { crc = (crc >> 1) ^ poly } else { crc >>= 1 }]. *)
Definition tab_bit (poly c : Z) : Z := if Z.land c 1 =? 1 then Z.lxor (Z.shiftr c 1) poly else Z.shiftr c 1.

(** simplePopulateTable / crc64.makeTable (util/encode.go:69,73): entry [i] is [i] after eight turns. *)
Definition make_table (poly : Z) : list Z := map (fun i => Nat.iter 8 (tab_bit poly) (Z.of_nat i)) (seq 0 256).

(** Table lookup (util/encode.go:69,73); indices are bytes, so there is no out-of-range case. *)
Definition at_ (tab : list Z) (i : Z) : Z := nth (Z.to_nat i) tab 0.

(** slicingMakeTable / makeSlicingBy8Table (util/encode.go:69,73):
    [crc = t[0][crc&0xff] ^ (crc >> 8); t[j][i] = crc]. *)
Definition slice_next (tab0 : list Z) (crc : Z) : Z := Z.lxor (at_ tab0 (Z.land crc 255)) (Z.shiftr crc 8).
(** Table [j] of the eight (util/encode.go:69,73). *)
Definition slice_table (tab0 : list Z) (j : nat) : list Z := map (fun i => Nat.iter j (slice_next tab0) (at_ tab0 (Z.of_nat i))) (seq 0 256).
(** All eight tables (util/encode.go:69,73). *)
Definition slice_tables (tab0 : list Z) : list (list Z) := map (slice_table tab0) (seq 0 8).

(** The byte loop shared by simpleUpdate and crc64.update (util/encode.go:69,73):
    [for _, v := range p { crc = tab[byte(crc)^v] ^ (crc >> 8) }]. *)
Fixpoint byte_loop (tab : list Z) (p : list Z) (crc : Z) : Z :=
  match p with
  | [] => crc
  | v :: rest => byte_loop tab rest (Z.lxor (at_ tab (Z.lxor (u8 crc) v)) (Z.shiftr crc 8))
  end.

(** The loop of crc32.slicingUpdate (util/encode.go:69): [for len(p) > 8 { ... p = p[8:] }]; returns the
    register and what is left of [p]. *)
Fixpoint slice_loop32 (t : list (list Z)) (p : list Z) (crc : Z) : Z * list Z :=
  match p with
  | p0 :: p1 :: p2 :: p3 :: p4 :: p5 :: p6 :: p7 :: ((_ :: _) as rest) =>
      let crc := Z.lxor crc (Z.lor (Z.lor (Z.lor p0 (Z.shiftl p1 8)) (Z.shiftl p2 16)) (Z.shiftl p3 24)) in
      let tb j i := at_ (nth j t []) i in
      slice_loop32 t rest
        (Z.lxor (Z.lxor (Z.lxor (Z.lxor (Z.lxor (Z.lxor (Z.lxor
          (tb 0%nat p7) (tb 1%nat p6)) (tb 2%nat p5)) (tb 3%nat p4))
          (tb 4%nat (Z.shiftr crc 24))) (tb 5%nat (Z.land (Z.shiftr crc 16) 255)))
          (tb 6%nat (Z.land (Z.shiftr crc 8) 255))) (tb 7%nat (Z.land crc 255)))
  | _ => (crc, p)
  end.

(** The uint32 complement [^crc] (util/encode.go:69). *)
Definition not32 (c : Z) : Z := Z.lxor c (2^32 - 1).
(** The uint64 complement [^crc] (util/encode.go:73). *)
Definition not64 (c : Z) : Z := Z.lxor c (2^64 - 1).

(** crc32.simpleUpdate (util/encode.go:69). *)
Definition simple_update32 (tab : list Z) (crc : Z) (p : list Z) : Z := not32 (byte_loop tab p (not32 crc)).

(** crc32.slicingUpdate with slicing8Cutoff = 16 (util/encode.go:69). *)
Definition slicing_update32 (tab : list Z) (crc : Z) (p : list Z) : Z :=
  let '(crc, p) := if 16 <=? Z.of_nat (length p)
                   then let '(c, rest) := slice_loop32 (slice_tables tab) p (not32 crc) in (not32 c, rest)
                   else (crc, p) in
  match p with [] => crc | _ => simple_update32 tab crc p end.

(** util/encode.go:68-70 [CRC32]: crc32.ChecksumIEEE(bs). *)
Definition CRC32 (bs : list Z) : Z := slicing_update32 (make_table ieee_poly) 0 bs.

(** The eight-byte loop of crc64.update (util/encode.go:73): [for len(p) > 8 { ... p = p[8:] }]. *)
Fixpoint slice_loop64 (t : list (list Z)) (p : list Z) (crc : Z) : Z * list Z :=
  match p with
  | p0 :: p1 :: p2 :: p3 :: p4 :: p5 :: p6 :: p7 :: ((_ :: _) as rest) =>
      let crc := Z.lxor crc (Z.lor (Z.lor (Z.lor (Z.lor (Z.lor (Z.lor (Z.lor p0 (Z.shiftl p1 8)) (Z.shiftl p2 16))
                   (Z.shiftl p3 24)) (Z.shiftl p4 32)) (Z.shiftl p5 40)) (Z.shiftl p6 48)) (Z.shiftl p7 56)) in
      let tb j i := at_ (nth j t []) i in
      slice_loop64 t rest
        (Z.lxor (Z.lxor (Z.lxor (Z.lxor (Z.lxor (Z.lxor (Z.lxor
          (tb 7%nat (Z.land crc 255)) (tb 6%nat (Z.land (Z.shiftr crc 8) 255)))
          (tb 5%nat (Z.land (Z.shiftr crc 16) 255))) (tb 4%nat (Z.land (Z.shiftr crc 24) 255)))
          (tb 3%nat (Z.land (Z.shiftr crc 32) 255))) (tb 2%nat (Z.land (Z.shiftr crc 40) 255)))
          (tb 1%nat (Z.land (Z.shiftr crc 48) 255))) (tb 0%nat (Z.shiftr crc 56)))
  | _ => (crc, p)
  end.

(** crc64.update with the ECMA table (util/encode.go:73): the fast path runs when [len(p) >= 64]; one pass of its
    outer loop leaves at most eight bytes, so the outer loop is an [if]. *)
Definition update64 (tab : list Z) (crc : Z) (p : list Z) : Z :=
  let crc := not64 crc in
  let '(crc, p) := if 64 <=? Z.of_nat (length p) then slice_loop64 (slice_tables tab) p crc else (crc, p) in
  not64 (byte_loop tab p crc).

(** util/encode.go:72-74 [CRC64]: crc64.Checksum(bs, crc64.MakeTable(crc64.ECMA)). *)
Definition CRC64 (bs : list Z) : Z := update64 (make_table ecma_poly) 0 bs.
