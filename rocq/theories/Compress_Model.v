(** Model of compress/compress.go:18-83 (zlib and gzip) and of util/compress.go:18-72.

    The Go packages compress/zlib and compress/gzip are not part of /repo.  A codec is a record of what they do: the bytes a
    writer has put into its sink at each stage, and what a reader delivers for a given input.  [conforming] below is the
    contract of the packages; it is a hypothesis of the theorems, and [stored] is one codec that meets it. *)
From stdpp Require Import list.
From Coq Require Import ZArith Lia.
From Verif Require Import GoInt Hash_Model.
Local Open Scope Z_scope.

(** The calls made on a compressing writer before its sink is looked at: Write(x); Write(x), Flush(); Write(x), Close();
    Write(x), Flush(), Close() (compress/compress.go:21-29,35-37,64-70; util/compress.go:22-26,48-50). *)
Inductive stage := Written | Flushed | Closed | FlushedClosed.

(** What the successive calls of Read on a decompressing reader return: [chunks] with a nil error, then [last] together
    with an error, which is io.EOF iff [eof] (compress/compress.go:52,80; util/compress.go:40,61). *)
Record reads := Reads { chunks : list (list Z); last_chunk : list Z; eof : bool }.
(** All bytes a reader delivers (compress/compress.go:52). *)
Definition data (r : reads) : list Z := concat (chunks r) ++ last_chunk r.

(** A codec: the content of the sink for a level, the bytes written and a stage; and the reader made by NewReader, None if
    NewReader returns an error (compress/zlib, compress/gzip as called at compress/compress.go:20,34,46,64,75 and
    util/compress.go:21,38,48,56).  Writing to a bytes.Buffer does not fail. *)
Record codec := Codec {
  sink : Z -> list Z -> stage -> list Z;
  reader : list Z -> option reads
}.

(** The contract of compress/zlib and compress/gzip, as far as the code relies on it.  The first three are the
    specification of a compression stream: a closed stream decodes to what was written; a stream cut anywhere delivers a
    prefix of it and then an error other than io.EOF (or has no reader at all); a flushed stream delivers everything that
    was written, but it is not at its end.  The fourth is how Go's deflate works: before Flush or Close it has emitted the
    header, so there is a reader, but always keeps back at least the last byte (compress/flate deflate.go, the lookahead of
    258 bytes). The last: Read returns no zero bytes without an error (package io). *)
Record conforming (c : codec) : Prop := {
  conf_closed : forall lv x st, is_bytes x -> st = Closed \/ st = FlushedClosed ->
    exists r, reader c (sink c lv x st) = Some r /\ data r = x /\ eof r = true;
  conf_cut : forall lv x st p, is_bytes x -> st = Closed \/ st = FlushedClosed -> p `prefix_of` sink c lv x st -> p <> sink c lv x st ->
    match reader c p with None => True | Some r => data r `prefix_of` x /\ eof r = false end;
  conf_flushed : forall lv x, is_bytes x -> exists r, reader c (sink c lv x Flushed) = Some r /\ data r = x /\ eof r = false;
  conf_written : forall lv x, is_bytes x -> exists r, reader c (sink c lv x Written) = Some r /\ data r `prefix_of` x /\ (x <> [] -> data r <> x) /\ eof r = false;
  conf_chunks : forall bs r, reader c bs = Some r -> Forall (fun ch => ch <> []) (chunks r)
}.

(** zlib.DefaultCompression, gzip.DefaultCompression (compress/compress.go:20,64; util/compress.go:21,48). *)
Definition DefaultCompression : Z := -1.
(** zlib.NewWriterLevel accepts -2 .. 9 (compress/zlib writer.go; compress/compress.go:34, util/compress.go:21). *)
Definition level_ok (lv : Z) : bool := (-2 <=? lv) && (lv <=? 9).

(** The result of a Go function that returns bytes and an error: the bytes and whether the error is non-nil (compress/compress.go:18). *)
Definition res := (list Z * bool)%type.

(** bytes.Buffer.ReadFrom(r): reads until the first error; io.EOF is not one; also io.Copy into a bytes.Buffer, which calls it
    (compress/compress.go:52,80; util/compress.go:40).  Returns the buffer and whether there was an error. *)
Definition ReadFrom (r : reads) : res := (data r, negb (eof r)).

(** compress.Zlib and compress.Gzip (compress/compress.go:18-29, 62-72): Write, Close, then Bytes. *)
Definition Zlib (c : codec) (input : list Z) : res := (sink c DefaultCompression input Closed, false).
(** compress.Gzip (compress/compress.go:62-72). *)
Definition Gzip (c : codec) (input : list Z) : res := (sink c DefaultCompression input Closed, false).
(** compress.ZlibLevel (compress/compress.go:31-43): Bytes is taken after Flush; the deferred Close comes later and adds its
    bytes behind the slice that is returned. *)
Definition ZlibLevel (c : codec) (bs : list Z) (lv : Z) : res :=
  if level_ok lv then (sink c lv bs Flushed, false) else (bs, true).
(** compress.UnZlib (compress/compress.go:45-57). *)
Definition UnZlib (c : codec) (bs : list Z) : res :=
  match reader c bs with
  | None => ([], true)
  | Some r => let '(d, e) := ReadFrom r in if e then ([], true) else (d, false)
  end.
(** compress.UnGzip (compress/compress.go:74-86). *)
Definition UnGzip (c : codec) (bs : list Z) : res :=
  match reader c bs with
  | None => ([], true)
  | Some r => let '(d, e) := ReadFrom r in if e then ([], true) else (d, false)
  end.

(** util.Zlib (util/compress.go:18-31): buf.Bytes() is evaluated after Write; Close is deferred to after that. *)
Definition uZlib (c : codec) (bs : list Z) : res := (sink c DefaultCompression bs Written, false).
(** util.UnZlib (util/compress.go:33-43): the error of io.Copy is dropped. *)
Definition uUnZlib (c : codec) (bs : list Z) : res :=
  match reader c bs with
  | None => ([], true)
  | Some r => ((ReadFrom r).1, false)
  end.
(** util.Gzip (util/compress.go:45-50): the result is the named variable buf, which the deferred Close still fills; the
    bytes.Buffer returned is modelled by its content. *)
Definition uGzip (c : codec) (bs : list Z) : res := (sink c DefaultCompression bs Closed, false).
(** The loop of util.UnGzip over the reads without an error (util/compress.go:59-66): stops at a read of no bytes; the
    boolean says whether the loop goes on. *)
Fixpoint ungzip_loop (acc : list Z) (chs : list (list Z)) : list Z * bool :=
  match chs with
  | [] => (acc, true)
  | [] :: _ => (acc, false)
  | ch :: chs => ungzip_loop (acc ++ ch) chs
  end.
(** util.UnGzip (util/compress.go:52-72): the bytes of a read with an error other than io.EOF are dropped; [err] inside the
    loop is a new variable, so the outer one stays nil. *)
Definition uUnGzip (c : codec) (bs : list Z) : res :=
  match reader c bs with
  | None => ([], true)
  | Some r =>
      let '(acc, more) := ungzip_loop [] (chunks r) in
      (if more && eof r then acc ++ last_chunk r else acc, false)
  end.
(** util.CheckGzipType (util/compress.go:74-79): whether the error is non-nil. *)
Definition CheckGzipType (c : codec) (bs : list Z) : bool := match reader c bs with None => true | Some _ => false end.

(** ** A conforming codec: zlib streams of stored blocks (RFC 1950, RFC 1951 section 3.2.4), one byte per block when writing *)

(** Adler-32 (RFC 1950 section 8.2), the checksum behind a zlib stream (compress/compress.go:46). *)
Definition adler (x : list Z) : Z :=
  let '(a, b) := fold_left (fun '(a, b) y => ((a + y) mod 65521, (b + ((a + y) mod 65521)) mod 65521)) x (1, 0) in b * 65536 + a.
(** The stored blocks for [x] (RFC 1951 section 3.2.4; compress/compress.go:21). *)
Definition stored_blocks (x : list Z) : list Z := concat (map (fun b => [0; 1; 0; 254; 255; b]) x).
(** The header of a zlib stream at the default level (RFC 1950 section 2.2; compress/compress.go:21). *)
Definition zhead : list Z := [120; 156].
(** The final empty block and the checksum (RFC 1950, RFC 1951; compress/compress.go:25). *)
Definition zend (x : list Z) : list Z := [1; 0; 0; 255; 255] ++ be_bytes 4 (adler x).
(** The sync marker of a flush (RFC 1951; compress/compress.go:37). *)
Definition zsync : list Z := [0; 0; 0; 255; 255].
(** Reading stored blocks: the data, and whether the stream ended properly, including its checksum (RFC 1950, RFC 1951;
    compress/compress.go:52).  [fuel]: one block takes at least 5 bytes. *)
Fixpoint unstore (fuel : nat) (acc bs : list Z) : list Z * bool :=
  match fuel with
  | O => (acc, false)
  | S fuel =>
      match bs with
      | h :: l0 :: l1 :: n0 :: n1 :: rest =>
          if (h =? 0) || (h =? 1) then
            if (l0 + n0 =? 255) && (l1 + n1 =? 255) then
              let len := Z.to_nat (l0 + 256 * l1) in
              if (length rest <? len)%nat then (acc ++ rest, false)
              else
                let acc := acc ++ firstn len rest in
                let rest := skipn len rest in
                if h =? 1 then
                  (acc, (4 <=? length rest)%nat && (be_val (firstn 4 rest) =? adler acc))
                else unstore fuel acc rest
            else (acc, false)
          else (acc, false)
      | _ => (acc, false)
      end
  end.
(** The codec of stored blocks, for zlib streams with the default header, reading a byte at a time (compress/compress.go:18-57). *)
Definition stored : codec := {|
  sink lv x st :=
    match st with
    | Written => zhead
    | Flushed => zhead ++ stored_blocks x ++ zsync
    | Closed => zhead ++ stored_blocks x ++ zend x
    | FlushedClosed => zhead ++ stored_blocks x ++ zsync ++ zend x
    end;
  reader bs :=
    match bs with
    | 120 :: 156 :: bs =>
        let '(d, ok) := unstore (S (length bs)) [] bs in
        Some {| chunks := map (fun b => [b]) d; last_chunk := []; eof := ok |}
    | _ => None
    end
|}.
