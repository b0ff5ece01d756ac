(** The readers behind UnZlib, UnGzip and CheckGzipType (compress/compress.go:45-57, 74-86; util/compress.go:33-83): what
    compress/flate (inflate.go), compress/zlib (reader.go) and compress/gzip (gunzip.go) of Go's standard library make of the
    bytes given to them.  They are not part of /repo; the definitions follow their source, up to the representation of the
    input (a list of bits instead of a byte reader with a bit buffer), of the Huffman tables (a list of codes instead of a
    two-level table indexed by reversed codes) and of the history (the whole output instead of a window of 32768 bytes).  How
    Read cuts the output into pieces is left open: see [cutter]. *)
From stdpp Require Import list.
From Coq Require Import ZArith.
From Verif Require Import GoInt Hash_Model Crc_Model Compress_Model.
Local Open Scope Z_scope.

(** The bits of a byte, in the order in which they are used (flate moreBits; compress/compress.go:52). *)
Definition bits_of_byte (b : Z) : list bool := map (fun i => Z.testbit b (Z.of_nat i)) (seq 0 8).
(** The bits of the input (flate moreBits; compress/compress.go:52). *)
Definition bits_of (bs : list Z) : list bool := flat_map bits_of_byte bs.

(** What a step of the decoder comes to: a value, io.ErrUnexpectedEOF, or CorruptInputError (flate; compress/compress.go:52). *)
Inductive dec (A : Type) := Got (a : A) (rest : list bool) | Short | Corrupt.
Arguments Got {A} a rest. Arguments Short {A}. Arguments Corrupt {A}.
(** The next step, if there is a value (flate; compress/compress.go:52). *)
Definition bind {A B} (d : dec A) (f : A -> list bool -> dec B) : dec B :=
  match d with Got a r => f a r | Short => Short | Corrupt => Corrupt end.

(** [for f.nb < n { moreBits }; v := f.b & (1<<n - 1); f.b >>= n] (flate; compress/compress.go:52). *)
Fixpoint getbits (n : nat) (b : list bool) : dec Z :=
  match n with
  | O => Got 0 b
  | S n => match b with [] => Short | x :: b => bind (getbits n b) (fun v r => Got (Z.b2z x + 2 * v) r) end
  end.

(** A Huffman code: least and greatest length, and (length, code, symbol) for every code (flate huffmanDecoder;
    compress/compress.go:52). *)
Record huff := Huff { hmin : nat; hmax : nat; codes : list (nat * Z * nat) }.

(** flate huffmanDecoder.init: count[n] (compress/compress.go:52). *)
Definition count (lens : list nat) (n : nat) : Z := Z.of_nat (length (filter (fun l => l = n) lens)).
(** flate huffmanDecoder.init: min, 0 if there is no code (compress/compress.go:52). *)
Definition min_len (lens : list nat) : nat :=
  fold_left (fun mn n => if (n =? 0)%nat then mn else if (mn =? 0)%nat || (n <? mn)%nat then n else mn) lens 0%nat.
(** flate huffmanDecoder.init: max (compress/compress.go:52). *)
Definition max_len (lens : list nat) : nat := fold_left (fun mx n => if (mx <? n)%nat then n else mx) lens 0%nat.
(** flate huffmanDecoder.init: [for i := min; i <= max; i++ { code <<= 1; nextcode[i] = code; code += count[i] }], [n] turns from
    length [i] (compress/compress.go:52). *)
Fixpoint nextcodes (lens : list nat) (n i : nat) (code : Z) (nextcode : list Z) : list Z * Z :=
  match n with
  | O => (nextcode, code)
  | S n => let code := 2 * code in nextcodes lens n (S i) (code + count lens i) (<[i := code]> nextcode)
  end.
(** flate huffmanDecoder.init: the codes in the order of the symbols, from symbol [i] (compress/compress.go:52). *)
Fixpoint assign (lens : list nat) (i : nat) (nextcode : list Z) : list (nat * Z * nat) :=
  match lens with
  | [] => []
  | n :: lens =>
      if (n =? 0)%nat then assign lens (S i) nextcode
      else let code := nth n nextcode 0 in (n, code, i) :: assign lens (S i) (<[n := code + 1]> nextcode)
  end.
(** flate huffmanDecoder.init (compress/compress.go:52); None is false: not all codes are used up, and not just one code of
    length 1.  maxCodeLen is 16. *)
Definition huff_init (lens : list nat) : option huff :=
  let mn := min_len lens in
  let mx := max_len lens in
  if (mx =? 0)%nat then Some (Huff 0 0 [])
  else
    let '(nextcode, code) := nextcodes lens (S mx - mn) mn 0 (repeat 0 16) in
    if negb (code =? 2 ^ Z.of_nat mx) && negb ((code =? 1) && (mx =? 1)%nat) then None
    else Some (Huff mn mx (assign lens 0 nextcode)).

(** The symbol with this code (flate huffSym; compress/compress.go:52). *)
Fixpoint find_code (cs : list (nat * Z * nat)) (len : nat) (code : Z) : option nat :=
  match cs with
  | [] => None
  | (n, c, s) :: cs => if (n =? len)%nat && (c =? code) then Some s else find_code cs len code
  end.
(** flate huffSym: further bits until they are a code (compress/compress.go:52); [fuel] is the number of bits a code can still have. *)
Fixpoint sym_loop (fuel : nat) (cs : list (nat * Z * nat)) (len : nat) (code : Z) (b : list bool) : dec nat :=
  match fuel with
  | O => Corrupt
  | S fuel =>
      match b with
      | [] => Short
      | x :: b =>
          let code := 2 * code + Z.b2z x in
          match find_code cs (S len) code with
          | Some s => Got s b
          | None => sym_loop fuel cs (S len) code b
          end
      end
  end.
(** flate huffSym: starts with h.min bits (compress/compress.go:52). *)
Definition huffSym (h : huff) (b : list bool) : dec nat :=
  if (length b <? hmin h)%nat then Short else sym_loop (hmax h) (codes h) 0 0 b.

(** flate codeOrder (compress/compress.go:52). *)
Definition codeOrder : list nat := [16; 17; 18; 0; 8; 7; 9; 6; 10; 5; 11; 4; 12; 3; 13; 2; 14; 1; 15]%nat.
(** flate readHuffman: nclen lengths of three bits (compress/compress.go:52). *)
Fixpoint read_clens (n : nat) (order : list nat) (codebits : list nat) (b : list bool) : dec (list nat) :=
  match n, order with
  | S n, o :: order => bind (getbits 3 b) (fun v b => read_clens n order (<[o := Z.to_nat v]> codebits) b)
  | _, _ => Got codebits b
  end.
(** flate readHuffman: the lengths of all codes, with repetitions (compress/compress.go:52).  [fuel]: every turn adds at least one. *)
Fixpoint read_lens (fuel : nat) (h : huff) (n : nat) (acc : list nat) (b : list bool) : dec (list nat) :=
  if (n <=? length acc)%nat then Got acc b
  else
    match fuel with
    | O => Corrupt
    | S fuel =>
        bind (huffSym h b) (fun x b =>
          if (x <? 16)%nat then read_lens fuel h n (acc ++ [x]) b
          else
            let '(rep, nb, v) :=
              if (x =? 16)%nat then (3, 2, List.last acc 0)%nat else if (x =? 17)%nat then (3, 3, 0)%nat else (11, 7, 0)%nat in
            if (x =? 16)%nat && (length acc =? 0)%nat then Corrupt
            else
              bind (getbits nb b) (fun e b =>
                let rep := (rep + Z.to_nat e)%nat in
                if (n <? length acc + rep)%nat then Corrupt else read_lens fuel h n (acc ++ repeat v rep) b))
    end.
(** flate readHuffman (compress/compress.go:52): both codes; maxNumLit is 286, maxNumDist 30; h1.min is raised to the length of
    the end-of-block code. *)
Definition readHuffman (b : list bool) : dec (huff * huff) :=
  bind (getbits 14 b) (fun v b =>
    let nlit := Z.to_nat (v mod 32 + 257) in
    let ndist := Z.to_nat ((v / 32) mod 32 + 1) in
    let nclen := Z.to_nat (v / 1024 + 4) in
    if (286 <? nlit)%nat || (30 <? ndist)%nat then Corrupt
    else
      bind (read_clens nclen codeOrder (repeat 0%nat 19) b) (fun codebits b =>
        match huff_init codebits with
        | None => Corrupt
        | Some h1 =>
            bind (read_lens (nlit + ndist) h1 (nlit + ndist) [] b) (fun lens b =>
              match huff_init (firstn nlit lens), huff_init (skipn nlit lens) with
              | Some hl, Some hd => Got (Huff (Nat.max (hmin hl) (nth 256 lens 0%nat)) (hmax hl) (codes hl), hd) b
              | _, _ => Corrupt
              end)
        end)).

(** flate fixedHuffmanDecoderInit (compress/compress.go:52). *)
Definition fixed_lens : list nat := (repeat 8 144 ++ repeat 9 112 ++ repeat 7 24 ++ repeat 8 8)%nat.
(** flate fixedHuffmanDecoder (compress/compress.go:52). *)
Definition fixedHuffmanDecoder : huff := match huff_init fixed_lens with Some h => h | None => Huff 0 0 [] end.

(** flate huffmanBlock: the length for symbol [v] > 256 (compress/compress.go:52). *)
Definition read_length (v : nat) (b : list bool) : dec nat :=
  let go base (k : nat) := bind (getbits k b) (fun e b => Got (base + Z.to_nat e)%nat b) in
  if (v <? 265)%nat then go (v - (257 - 3))%nat 0%nat
  else if (v <? 269)%nat then go (v * 2 - (265 * 2 - 11))%nat 1%nat
  else if (v <? 273)%nat then go (v * 4 - (269 * 4 - 19))%nat 2%nat
  else if (v <? 277)%nat then go (v * 8 - (273 * 8 - 35))%nat 3%nat
  else if (v <? 281)%nat then go (v * 16 - (277 * 16 - 67))%nat 4%nat
  else if (v <? 285)%nat then go (v * 32 - (281 * 32 - 131))%nat 5%nat
  else if (v <? 286)%nat then go 258%nat 0%nat
  else Corrupt.
(** flate huffmanBlock: the symbol of the distance, five reversed bits without a code (compress/compress.go:52). *)
Definition dist_sym (hd : option huff) (b : list bool) : dec nat :=
  match hd with
  | Some h => huffSym h b
  | None => bind (getbits 5 b) (fun v b =>
      Got (Z.to_nat (fold_left (fun a i => 2 * a + Z.b2z (Z.testbit v (Z.of_nat i))) (seq 0 5) 0)) b)
  end.
(** flate huffmanBlock: the distance (compress/compress.go:52). *)
Definition read_dist (hd : option huff) (b : list bool) : dec nat :=
  bind (dist_sym hd b) (fun d b =>
    if (d <? 4)%nat then Got (S d) b
    else if (d <? 30)%nat then
      let nb := ((d - 2) / 2)%nat in
      bind (getbits nb b) (fun e b => Got (Z.to_nat (2 ^ Z.of_nat (S nb) + 1 + (Z.of_nat d mod 2 * 2 ^ Z.of_nat nb + e))) b)
    else Corrupt).

(** flate dictDecoder.writeCopy: [n] bytes from [d] bytes back, one by one (compress/compress.go:52). *)
Fixpoint copy_back (n d : nat) (out : list Z) : list Z :=
  match n with O => out | S n => copy_back n d (out ++ [nth (length out - d) out 0]) end.

(** How a block or a stream ends: properly, or with an error, which is io.ErrUnexpectedEOF iff [short]; and the output so far,
    all of which Read still delivers (flate; compress/compress.go:52). *)
Inductive ended := End (out : list Z) (rest : list bool) | Failed (short : bool) (out : list Z).
(** Carries a step that failed over to the block (flate; compress/compress.go:52). *)
Definition step {A} (d : dec A) (out : list Z) (f : A -> list bool -> ended) : ended :=
  match d with Got a r => f a r | Short => Failed true out | Corrupt => Failed false out end.

(** flate huffmanBlock and copyHistory (compress/compress.go:52).  [fuel]: every turn takes at least one bit. *)
Fixpoint huffmanBlock (fuel : nat) (hl : huff) (hd : option huff) (out : list Z) (b : list bool) : ended :=
  match fuel with
  | O => Failed true out
  | S fuel =>
      step (huffSym hl b) out (fun v b =>
        if (v <? 256)%nat then huffmanBlock fuel hl hd (out ++ [Z.of_nat v]) b
        else if (v =? 256)%nat then End out b
        else
          step (read_length v b) out (fun len b =>
            step (read_dist hd b) out (fun d b =>
              if Z.min (Z.of_nat (length out)) 32768 <? Z.of_nat d then Failed false out
              else huffmanBlock fuel hl hd (copy_back len d out) b)))
  end.

(** Up to [n] whole bytes from the front of the bits (flate copyData; compress/compress.go:52). *)
Fixpoint getbytes (n : nat) (b : list bool) : list Z * list bool :=
  match n with
  | O => ([], b)
  | S n => match getbits 8 b with Got v r => let '(l, r) := getbytes n r in (v :: l, r) | _ => ([], b) end
  end.
(** flate dataBlock and copyData (compress/compress.go:52): the rest of the current byte is skipped. *)
Definition dataBlock (out : list Z) (b : list bool) : ended :=
  let b := skipn (length b mod 8) b in
  step (getbits 32 b) out (fun v b =>
    let n := v mod 65536 in
    if negb (v / 65536 =? 65535 - n) then Failed false out
    else let '(l, r) := getbytes (Z.to_nat n) b in
         if (length l <? Z.to_nat n)%nat then Failed true (out ++ l) else End (out ++ l) r).

(** flate nextBlock, until the final block (compress/compress.go:52).  [fuel]: every block takes at least three bits. *)
Fixpoint inflate (fuel : nat) (out : list Z) (b : list bool) : ended :=
  match fuel with
  | O => Failed true out
  | S fuel =>
      step (getbits 3 b) out (fun v b =>
        let typ := v / 2 in
        let e :=
          if typ =? 0 then dataBlock out b
          else if typ =? 1 then huffmanBlock (S (length b)) fixedHuffmanDecoder None out b
          else if typ =? 2 then
            step (readHuffman b) out (fun hh b => huffmanBlock (S (length b)) hh.1 (Some hh.2) out b)
          else Failed false out in
        match e with
        | End out b => if v mod 2 =? 1 then End out b else inflate fuel out b
        | Failed s out => Failed s out
        end)
  end.
(** A flate reader on these bytes (flate NewReader; compress/compress.go:46): the output and, if the stream ended, the bytes
    behind it; the rest of the last byte is dropped. *)
Definition flate (bs : list Z) : list Z * option (list Z) :=
  match inflate (S (length (bits_of bs))) [] (bits_of bs) with
  | End out r => (out, Some (skipn (length bs - length r / 8) bs))
  | Failed _ out => (out, None)
  end.

(** What a reader delivers and whether it ends with io.EOF; None if NewReader fails (compress/compress.go:46,75). *)
Definition delivered := option (list Z * bool).

(** zlib reader.Reset and reader.Read (compress/compress.go:46-52): header, optional preset dictionary (which must be the empty
    one, nil being given, whose Adler-32 is 1), data, checksum.  What follows is not looked at. *)
Definition zlib_read (bs : list Z) : delivered :=
  match bs with
  | c0 :: c1 :: rest =>
      if negb (Z.land c0 15 =? 8) || (7 <? Z.shiftr c0 4) || negb ((c0 * 256 + c1) mod 31 =? 0) then None
      else
        let body :=
          if Z.land c1 32 =? 0 then Some rest
          else match rest with d0 :: d1 :: d2 :: d3 :: rest => if be_val [d0; d1; d2; d3] =? 1 then Some rest else None | _ => None end in
        match body with
        | None => None
        | Some rest =>
            match flate rest with
            | (out, Some (a0 :: a1 :: a2 :: a3 :: _)) => Some (out, be_val [a0; a1; a2; a3] =? adler out)
            | (out, _) => Some (out, false)
            end
        end
  | _ => None
  end.

(** How reading a gzip header ends: the bytes behind it, nothing there at all (io.EOF), or another error (gunzip readHeader;
    compress/compress.go:75). *)
Inductive header := HOk (rest : list Z) | HEof | HErr.
(** gunzip readString: the string with its zero byte, and the rest; the buffer has 512 bytes (compress/compress.go:75). *)
Fixpoint readString (n : nat) (bs : list Z) : option (list Z * list Z) :=
  match n, bs with
  | S n, b :: bs => if b =? 0 then Some ([0], bs) else match readString n bs with Some (s, r) => Some (b :: s, r) | None => None end
  | _, _ => None
  end.
(** gunzip readHeader: an optional string; [dig] are the bytes the header checksum covers (compress/compress.go:75). *)
Definition opt_string (flag : bool) (dig bs : list Z) : option (list Z * list Z) :=
  if flag then match readString 512 bs with Some (s, r) => Some (dig ++ s, r) | None => None end else Some (dig, bs).
(** gunzip readHeader: the optional extra field (compress/compress.go:75). *)
Definition opt_extra (flag : bool) (dig bs : list Z) : option (list Z * list Z) :=
  if flag then
    match bs with
    | l0 :: l1 :: r => let n := Z.to_nat (l0 + 256 * l1) in
                       if (length r <? n)%nat then None else Some (dig ++ l0 :: l1 :: firstn n r, skipn n r)
    | _ => None
    end
  else Some (dig, bs).
(** gunzip readHeader: the optional header checksum (compress/compress.go:75). *)
Definition opt_hcrc (flag : bool) (dig bs : list Z) : option (list Z) :=
  if flag then
    match bs with c0 :: c1 :: r => if c0 + 256 * c1 =? CRC32 dig mod 65536 then Some r else None | _ => None end
  else Some bs.
(** gunzip readHeader (compress/compress.go:75; util/compress.go:52,71). *)
Definition readHeader (bs : list Z) : header :=
  match bs with
  | [] => HEof
  | _ =>
      let h := firstn 10 bs in
      if (length h <? 10)%nat then HErr
      else if negb (nth 0 h 0 =? 31) || negb (nth 1 h 0 =? 139) || negb (nth 2 h 0 =? 8) then HErr
      else
        let flg := nth 3 h 0 in
        match opt_extra (Z.testbit flg 2) h (skipn 10 bs) with
        | None => HErr
        | Some (dig, r) =>
            match opt_string (Z.testbit flg 3) dig r with
            | None => HErr
            | Some (dig, r) =>
                match opt_string (Z.testbit flg 4) dig r with
                | None => HErr
                | Some (dig, r) => match opt_hcrc (Z.testbit flg 1) dig r with Some r => HOk r | None => HErr end
                end
            end
        end
  end.
(** gunzip Read, from behind a header: data, checksum and length, then the next header, until there is none
    (compress/compress.go:80; util/compress.go:57).  Simplification: the checksum is that of all data of the member instead of
    being updated piece by piece.  [fuel]: every member has at least 18 bytes. *)
Fixpoint gunzip (fuel : nat) (acc bs : list Z) : list Z * bool :=
  match fuel with
  | O => (acc, false)
  | S fuel =>
      match flate bs with
      | (out, Some tail) =>
          if (length tail <? 8)%nat then (acc ++ out, false)
          else if negb (le_val (firstn 4 tail) =? CRC32 out) || negb (le_val (firstn 4 (skipn 4 tail)) =? u32 (Z.of_nat (length out)))
          then (acc ++ out, false)
          else match readHeader (skipn 8 tail) with
               | HOk r => gunzip fuel (acc ++ out) r
               | HEof => (acc ++ out, true)
               | HErr => (acc ++ out, false)
               end
      | (out, None) => (acc ++ out, false)
      end
  end.
(** gzip NewReader and Read (compress/compress.go:75-80; util/compress.go:52-57). *)
Definition gzip_read (bs : list Z) : delivered :=
  match readHeader bs with HOk r => Some (gunzip (S (length bs)) [] r) | _ => None end.

(** How Read cuts what it delivers: pieces without an error and the piece that comes with it.  In Go this depends on the buffer
    given and on when the window of 32768 bytes is full; here it is any way that loses nothing and makes no empty piece
    (compress/compress.go:52,80; util/compress.go:40,57). *)
Record cutter := Cutter {
  cut : list Z -> list Z -> list (list Z) * list Z;
  cut_all : forall bs d, concat (cut bs d).1 ++ (cut bs d).2 = d;
  cut_some : forall bs d, Forall (fun ch => ch <> []) (cut bs d).1
}.
(** A reader as the callers see it (compress/compress.go:46,75). *)
Definition as_reader (k : cutter) (read : list Z -> delivered) (bs : list Z) : option reads :=
  match read bs with
  | None => None
  | Some (d, e) => Some (Reads (cut k bs d).1 (cut k bs d).2 e)
  end.
(** The codecs of compress/zlib and compress/gzip with these readers; what the writers put out is left open
    (compress/compress.go:18-86; util/compress.go:18-83). *)
Definition zlib_codec (k : cutter) (out : Z -> list Z -> stage -> list Z) : codec := Codec out (as_reader k zlib_read).
(** See [zlib_codec] (compress/compress.go:62-86; util/compress.go:44-75). *)
Definition gzip_codec (k : cutter) (out : Z -> list Z -> stage -> list Z) : codec := Codec out (as_reader k gzip_read).
