# Formal model of donnie4w/gofer

Everything lives in `rocq/theories`, flat. For a package `X` there are up to four files:

* `X_Model.v`  – computable definitions only, each with the file and lines of `/repo` it models.
* `X_Spec.v`   – the independent vocabulary in which the properties are stated (no model helpers).
* `X_Proofs.v` – lemmas.
* `X_Props.v`  – the theorems, closed by `exact`, each with a concrete `Example` that meets its
  hypotheses and a `Print Assumptions`.

## Conventions

* Go integers are `Z` with an explicit wrap (`GoInt.v`: `u8 u16 u32 u64 i16 i32 i64`). Bytes are `Z`
  in `[0,256)`. Nothing above a few thousand is a `nat`.
* A Go panic is an explicit result constructor, a Go `(value, error)` is an `option`/`sum`.
* A concurrent program is a set of threads, each a program counter plus locals, and a `step` function
  that lets one chosen thread do one atomic action. A schedule is an arbitrary list of choices; a
  choice that is not enabled changes nothing. Properties are invariants over all schedules.
  One atomic action is one Go memory access to shared state, one `sync/atomic` call, one
  `sync.Mutex`/channel operation (sequentially consistent interleaving; the Go memory model gives
  SC for data-race-free programs, racy accesses are noted where they occur).
* External code (hash functions, compressors, `crypto/*`, the operating system) is either
  implemented (CRC8, CRC64, FNV, container/list, AES-256, Adler/stored deflate instance) or a `Section`
  variable with the contract as a hypothesis of the theorem. There are no `Axiom`s.
* A property that is false of the code is kept in the list with its full statement; the theorem
  `..._refuted` exhibits the counterexample on the faithful model, and the strongest true part is
  proved next to it with the suffix `_partial` if it proves only part of the English statement.

## Plan per property

| id | modelled | method |
|----|----------|--------|
| C01–C03 | `base58/base58.go` complete (loops, in-place reversal, alphabet lookup, uint64 wrap) | induction on the value / the input; spec is positional value `Σ d_i 58^i` |
| C04–C06 | `util/num.go` codecs with shifts, ORs and Go conversions | bit level lemmas, spec is big-endian value modulo 2^n |
| C07–C08 | `util/encode.go` CRC8 with its literal table | table checked against bit-serial division by computation over 256 entries; then induction over messages; error classes by linearity |
| C09–C13 | `uuid/uuid.go` with `hash64` a parameter; `getSeq` counter as atomic increments under schedules | bit level lemmas, hex codec round trip, injectivity of the 62 low bits |
| C14–C16 | `keystore/aes.go`, slices with backing array for C16; AES-256 block cipher first a parameter with `D(E b)=b`, then implemented | CBC induction over blocks; PKCS7 lemma |
| C17–C18 | `hashmap/limitmap.go` on top of a pointer-level model of `container/list` | refinement to a list-of-pairs spec, invariant over histories |
| C19–C22 | `hashmap/limithashmap.go` same list model, hash functions for every key type incl. FNV-1a | refinement per segment; collision witness |
| C23–C27, C77 | `hashmap/linkedhashmap.go` on the pointer-level list; iterator as pointer; C77 with Put split into its steps | refinement, induction over `Next` calls |
| C28–C29 | `hashmap/map.go`, Put/Del as two atomic steps | refinement; invariant over schedules |
| C30 | `hashmap/treemap.go` over a sorted-list contract of google/btree | refinement, sortedness invariant |
| C31–C35 | `hashmap/consistenthash.go` with sort/search; CRC64-ECMA implemented | ring spec independent of slices; collision witness by computation |
| C36 | `cache/lrucache.go` + `groupcache/lru` over the pointer-level list | refinement to recency list |
| C37–C39 | `cache/bloom.go`, three generations, hash a parameter; word RMW as load/store steps | invariant over histories; racing schedule witness |
| C40–C42 | `lock/lock.go` | invariants over schedules |
| C43–C47 | `lock/await.go`, `lock/fastawait.go`: map of channels (cap 1), close/send/receive, panics and recover | invariants over schedules, witness schedules |
| C48–C50 | `mmap/mmap.go`, `mmap/sync_unix.go`: reservation under lock, copy byte by byte, page cache vs disk | invariants over schedules and crash points |
| C51–C53 | `fastio/fw.go` complete state machine | invariant over schedules; witness schedules |
| C54–C57 | `buffer/buffer.go`, `pool/buffer/*.go` | refinement; ownership invariant |
| C58–C60 | `pool/gopool/gopool.go` state machine | invariants over schedules; witness schedules |
| C61 | `keystore/store.go` read/write loops and the compact protocol wire format | codec round trip by induction |
| C62–C64 | `keystore/bin.go`, `keystore/keystore.go`, file as bytes with crash points | refinement; witnesses |
| C65–C67 | `compress/compress.go`, `util/compress.go` over an abstract buffering stream codec and a concrete instance | equational from the contract; instance shows contract is satisfiable |
| C68–C72 | `image/image.go`, `image/adjust.go` arithmetic, binary64 by Flocq | real-number error bounds; integer arithmetic |
| C73–C75 | `websocket/wshandle.go`, `httpclient/post.go`, `gosignal` decision logic and lifecycle | invariants over schedules |
| C76 | generic mutex-protected object | linearizability by induction over schedules |
| C78, C85, C86 | `util/encode.go` helpers; MD5, SHA-1, FNV implemented; math/rand and crypto/rand.Int over a stream of random words | direct; counting for fairness |
| C79 | `uuid/uuid.go` Int64, Base58 | composition of C04 and C01 |
| C80 | `fastio/fw.go` with the caller's slice as shared memory | witness schedule; invariant |
| C81 | `pool/gopool/gopool.go` with panicking functions | invariants over schedules; witness |
| C82–C84 | `buffer/buffer.go`, `pool/buffer/*.go` with backing arrays and pools as bags | ownership invariant; witnesses |
| C87–C88 | `keystore/keystore.go`, `keystore/store.go` Equals with nil maps and nil users | case analysis; witnesses |
| C89–C95 | `image/image.go`, `image/adjust.go`, binary64 by Flocq | error bounds over the reals; witnesses by computation |
| C96–C98 | `websocket/wshandle.go` with golang.org/x/net/websocket's Conn | invariants over schedules; witnesses |
| C99–C100 | `httpclient/post.go` with http.Header, AddCookie and a server as a function | case analysis; permutation of the map order |
| C101 | `hashmap/limithashmap.go` Len and Clear, segment by segment | witness histories that have no linearization; reduction to atomic sections, then invariants: nothing is found after a Clear once no Put is pending, Len is exact while only reads are pending |
| C102 | `mmap/mmap.go` NewMMAP | case analysis; witness |
| C128–C131 | `util/encode.go` StrToTimeFormat with time.Parse, time.Date and zone lookup of Go 1.23 for its layout, Asia/Shanghai of the tz database | calendar by closed form against the day-after relation; zones by spacing; exact language |
| C132–C134 | `util/encode.go` MD5, SHA1, Blake2b on the published functions (RFC 1321, FIPS 180-4, RFC 7693) | Merkle–Damgård: last block holds the length, then induction from the end; extension by splitting at block borders; the published collisions by computation |
| C135–C139 | the readers of compress/flate, compress/zlib, compress/gzip behind UnZlib, UnGzip, CheckGzipType (compress and util) | relations written after RFC 1950–1952 (canonical codes by rank sums); decoder sound and complete by induction over symbols, runs, blocks, members; longer inputs extend runs; 129 bytes per bit bound by induction; bomb family computed once and iterated |
| C140–C141 | `pool/gopool/gopool.go` with functions that call Go, Close and TurnOff of their pool | each run is, up to the order of goroutines, a run of the flat model in which the calls of started functions are further clients; so its invariants carry over; witness for every FuncLimit |
| C142–C143 | the sizes that `cache/bloom.go` computes, in float64; math.Log by its accuracy; hash values independent and uniform | relative errors of each operation; the rate counted over all tables of hash values, Chebyshev and the power mean for the bound from below, negative dependence of the bits for the one from above; witnesses for every such logarithm |
| C123–C127 | `mmap/mmap.go` Unmap, UnmapAndCloseFile, Flush, Bytes, Close: file, disk, kernel mappings | invariant over histories with failing system calls; invariant over schedules; witnesses |
| C103–C105 | `keystore/key.go`; crypto/rsa's PKCS1 v1.5 implemented; the built-in PEM and DER texts decoded | Fermat's theorem (proved by mathcomp), induction over padding; computation for the built-in keys, whose primes are proved prime by certificates (`Prime_*.v`: a test of Lenstra, its soundness proved in an algebraic closure of Z/r) |
| C109–C111 | `util/compress.go` SnappyEncode, SnappyDecode with golang/snappy implemented (hash table, match search, copies) | refinement to the format; invariant of the table; size by a potential |
| C144–C146 | `compress/compress.go` UnSnappy with klauspost's s2.Decode implemented; the memory both decoders take | refinement to the format of S2, which contains snappy's; ratios by induction over the elements |
| C112–C115 | `util/encode.go` CRC32, CRC64 with the portable code of hash/crc32, hash/crc64 (tables, byte loop, slicing by eight) | register run on one number holding register and message; order of x modulo the generator by square-and-reduce and prime factors; three-bit errors by a search over all residues |
| C116–C122 | `image/image.go` Encode, parseImage; `image/adjust.go` gray, invert; disintegration/imaging's flips, quarter turns, Grayscale, Invert; other filters and all codecs are arbitrary functions under a contract | pictures as functions of places; float error bounds for gray and for the angle; a small codec shows that the contract can be met |
| C147–C154 | `image/image.go` Resize and Encode with a size, `image/adjust.go` blurGaussianImage, scaleImageWithRatio: disintegration/imaging's Resize, Fill, CropCenter, Blur and its 15 filters, pixel by pixel, from its published source (resize.go, effects.go, tools.go) | float error bounds for weights, sums and rounding; relations closed under the mixing of pixels; witnesses |
| C155–C158 | `image/image.go` Rotate and the turn in Encode by degrees that are no quarter turn: imaging.Rotate, its size, its place in the source and its bilinear mixing, pixel by pixel, from its published source (transform.go) | mixing as a weighted mean of pixels; the distance between a float place and the true one; Lipschitz bounds carry it to opacity and colour |
| C159–C160 | `util/encode.go` UUID64 and UUID32, `uuid/uuid.go` Int64 and Int32, on the interleaved calls of the UUID model; maphash's values independent and uniform | counting over all tables of hash values; pigeonhole |
| C161–C164 | `util/gob.go` JsonEncode and JsonDecode for values of type any; encoding/json (Go 1.23: encode.go, decode.go, scanner.go) and the part of unicode/utf8 it uses implemented from their source, the scanner as a recursive descent; strconv a contract | grammar of RFC 8259 and RFC 3629 as inductive relations; completeness by induction on derivations, soundness by induction on the decoder's steps, the encoder by induction on values |
| C165 | `util/encode.go` ReadFile among writes and cuts by others; golang.org/x/exp/mmap and mmap(2) with pages of 4096 bytes from their published behaviour | invariants over all interleavings |
| C166 | `fast/fast.go` StringToSlice in programs with strings and slices that share memory | an invariant: the room behind a slice belongs to no string |
| C167–C168 | `hashmap/map.go` MapL and `hashmap/treemap.go` with NaN among the keys; the B-tree of google/btree while it is one node, with sort.Search | an entry under NaN stays: induction over later calls; what the binary search answers when nothing is less or greater |
| C169 | `hashmap/limitmap.go` with NaN among the keys, elements numbered; each method one step | counting of keys that equal nothing; an invariant of the map they fill |
| C170 | `hashmap/linkedhashmap.go` Put, Get, Delete, Front, Len with keys that cannot be hashed, panics recovered from by the caller | what a call leaves behind when it stops in the middle; induction over the calls up to the limit |
| C106–C108 | `fastio/file.go` over a model of os.File | invariant over histories; witnesses |

Not expressible here: strength of hash functions and RSA/AES, wall-clock behaviour (timeouts are
non-deterministic events), pixel contents produced by resampling filters and lossy codecs, reflection-based gob.

## Trusted base

1. Coq 8.16.1's kernel (with its `vm_compute`), and that this reading of the Go code is right: the code is not run.
2. Axioms. `Print Assumptions` stands below every theorem of the `*_Props.v` files. It answers "Closed under the
   global context" for all of them except the following, which use the real numbers and Flocq and for which it lists
   four axioms of Coq's standard library,
   `ClassicalDedekindReals.sig_not_dec`, `ClassicalDedekindReals.sig_forall_dec`,
   `FunctionalExtensionality.functional_extensionality_dep`, `Classical_Prop.classic`:
   `c68_resize_never_enlarges_refuted`, `c68_resize_never_enlarges_partial`, `c69_mode0_fits_refuted`,
   `c69_mode0_fits_partial`, `c70_limit`, `c70_proportion`, `c72_encoders`, `c72_encoder_values`, `c89_keeps_ratio`, `c89_never_vanishes`,
   `c90_scale_lower_fits`, `c91_scale_upper_covers_refuted`, `c91_scale_upper_nearly_covers_partial`,
   `c91_scale_upper_covers_partial`, `c92_max_pixel_refuted`, `c92_max_pixel_partial`, `c93_gif_fits`,
   `c94_gif_reaches_refuted`, `c94_gif_vanishes_refuted`, `c94_gif_nearly_reaches_partial`, `c116_orientation`, `c116_undone`, `c116_two_calls_are_one`, `c117_degrees_modulo_360_partial`, `c117_degrees_modulo_360_refuted`, `c118_gray_is_nearest_luma`, `c118_gray_twice_is_gray_once`, `c118_brighter_stays_brighter`, `c119_invert_twice`, `c119_colours_and_places_commute`, `c119_gray_of_negative_refuted`, `c119_gray_of_negative_partial`, `c120_one_by_one`, `c120_no_options`, `c120_filters`, `c121_missing_crop_refuted`, `c121_quality_and_colors_refuted`, `c121_unknown_format_refuted`, `c121_applied_partial`, `c122_size`, `c122_lower_fits`, `c122_upper_nearly_covers`, `c122_thumbnail`, `c122_fits_request_refuted`, `c142_sizes`, `c142_usable_partial`, `c142_usable_refuted`, `c142_no_items_refuted`, `c143_rate`, `c143_asked_rate_refuted`, `c143_full_refuted`, `c143_quarter_partial`, `c143_half_partial`, `c143_always_partial`,
   `c147_one_colour_partial`, `c147_one_colour_scaled_down_partial`, `c147_one_colour_scaled_up_partial`, `c148_one_alpha_partial`, `c148_one_alpha_scaled_down_partial`, `c148_one_alpha_scaled_up_partial`, `c149_no_new_colours_partial`, `c149_no_new_colours_refuted`, `c150_transparent_blurred`, `c150_transparent_resized`, `c150_transparent_scaled_down`, `c150_transparent_scaled_up`, `c151_box_means`, `c152_blur_erases_refuted`, `c152_blur_no_new_colours_partial`, `c152_blur_one_alpha_partial`, `c152_blur_one_colour_partial`, `c152_blur_size`, `c153_nearest_picks`, `c154_same_size`, `c154_thumbnail_middle`, `c155_no_more_alpha`, `c155_no_new_colours`, `c155_one_colour`, `c156_inside`, `c156_outside`, `c156_turned_about_the_middle`, `c157_nothing_cut_off`, `c157_size`, `c158_hidden_colours`, `c159_uuid64_likely`, `c159_uuid64_partial`, `c160_uuid32_likely_refuted`, `c160_uuid32_partial`.
   Of these, `c143_rate` and the theorems of C159 and C160 use only `sig_forall_dec` and `functional_extensionality_dep`.
   `c105_default_keys` rests on the primitive 63-bit integers of the standard library and what it states about them
   (`PrimInt63.*`, `Uint63.*_spec` and the like), through Bignums, which adds none; the certificates of primality are checked with them.
   `default_keys_if` beside it assumes the primality instead, and rests on no axiom.
   There are no axioms, section-less variables, functors or module types here. `coqchk` also lists axioms of
   libraries that are loaded but not used by any theorem.
3. Hypotheses of theorems that stand for code outside the repository: block ciphers and compressors where a theorem
   names a contract (an instance is given next to each), `hash64` of uuid, the hash of bloom filters, math.Log, the server of
   C99, PEM and x509 of C103 and C104, strconv's floats of C161, C163 and C164.

### What is taken from published behaviour, not from this repository

* sync.Mutex, RWMutex, sync.Map, sync.Pool (a bag that may lose or hand out anything in it), channels, sync/atomic: their documentation,
  interleaved sequentially consistently.
* container/list, google/btree (as a sorted list), groupcache/lru, sort.Search, hash/crc64, FNV, crypto/md5, crypto/sha1, blake2b, crypto/aes,
  crypto/cipher CBC, crypto/rsa (without the Chinese remainder theorem), golang/snappy and klauspost's s2.Decode (the Go code, which the assembler code mirrors), encoding/binary varints, math/rand, crypto/rand.Int: implemented from the published code or the standard.
* Apache thrift's compact protocol (UUID type 13 left out), compress/zlib and compress/gzip (C65–C67: as a contract over a buffering stream; C135–C139: the readers from their source — bits as a list, Huffman tables as lists of codes, the whole output as history, any cutting by Read — and the writers only by the format they emit).
* disintegration/imaging's sizes, crops, flips, quarter turns, Grayscale and Invert (float64 without fused multiply-add), Go's float to int conversion out of range as on amd64.
* disintegration/imaging's Resize, Fill and Blur (C147–C154): images of any kind are read as 8-bit non-premultiplied pixels, the sum order of the source, no fused multiply-add. math.Sin, math.Cos and math.Exp are arbitrary functions; where it matters math.Exp is asked to be right within 2^-40 relative or 2^-100 absolute (`exp_ok`, met by the nearest float64: `exp_ok_ex`), and math.Sin and math.Cos between -16 and 16 within 2^-45 of the angle and within 2^-45 (`trig_ok`, met by the nearest float64: `trig_ok_ex`; filters 8 to 14, ScaleUpper and ScaleLower only). The goroutines of imaging's `parallel` write disjoint rows and are modelled as a function of the place.
* disintegration/imaging's Rotate (C155–C158): the same reading of pixels, math.Sincos is math.Sin and math.Cos, no fused multiply-add. C155 and C158 hold for any sine and cosine. C156 and C157 need `trig_ok`, sides of at most a million (`million`) and degrees below 2^53.
* encoding/json for values of type any (C161–C164), with HTML escaping as json.Marshal has it. strconv.AppendFloat and strconv.ParseFloat are handed in: `strconv_ok` says that a number is written in the form of RFC 8259 and read back, `reads_finite` that what is read can be written. A pointer or cycle in the value is out of scope.
* golang.org/x/exp/mmap and mmap(2) on Linux (C165): a shared mapping shows the file as it is, zeros up to the end of the last page, SIGBUS behind it.
* google/btree v1.1.3 on a tree of one node: items.find, insert, get, remove (C168); sync.Map as a list of entries compared with == (C167).
* golang.org/x/net/websocket's Conn, net/http's Header and AddCookie, url schemes, x509 pools, tls verification, os/signal.Notify, os.File.

### What is modelled and what is not, per package

| package | modelled | not modelled |
|---------|----------|--------------|
| base58 | all | |
| buffer, pool/buffer | all | the destination slice of Read beyond the number of bytes |
| cache | LruCache, BloomFilter (three generations, sizes) | math.Log (its accuracy is a hypothesis of C142 and C143), maphash itself, String; the word a bit is set in is read when it is stored |
| compress, util/compress | zlib, gzip (readers in full, writers by their format); util's snappy; klauspost's snappy decoder | zstd, klauspost's snappy encoder (its output is by hypothesis snappy, C144); how the deflate writer chooses its blocks |
| fast | StringToSlice | the garbage collector |
| fastio | the writer under all interleavings; files used by one goroutine | concurrent Close, Read, ReadAt, WriteAt; int64 wrap of offsets; errors of the operating system |
| gosignal | all | |
| hashmap | all types | NaN keys other than in MapL, LimitMap and a TreeMap of one node (C167–C169), keys that cannot be hashed other than in LinkedHashMap (C170), float32 keys of LimitHashMap; LinkedHashMap.Clear's replacement of its sync.Map is one step |
| httpclient | Post, Post2, Post3 | redirects inside http.Client.Do, TimeOut |
| image | sizes, modes, scale options, GIF frames, type sniffing, the choice of encoder, all steps of Encode; pixels of crops, gray, invert, flips, turns by any angle, resizing with every filter, blur | codecs, panics in them |
| keystore | AES, RSA, key store file and its wire format, the in-memory store | key generation (there is none), directories |
| lock | all | Await.Get apart from waits; bloom operations inside FastAwait are atomic |
| mmap | NewMMAP, Append, WriteAt and their Sync forms with crashes; Unmap, UnmapAndCloseFile, Flush, Bytes, FileSize, Close on Unix (edsrzf/mmap-go from its published behaviour) | Unmap and Flush on Windows and Solaris |
| pool/gopool | all | runtime.Goexit in a function, functions with several goroutines that call Go (one goroutine each) |
| thrift, util/gob | TEncode, TDecode, JsonEncode, JsonDecode[any] | gob and protobuf wrappers; JsonEncode and JsonDecode of structs and other types (reflection), the value beside an error |
| util | num.go, CRC8, CRC32, CRC64, MD5, SHA-1, Blake2b, FNV, random numbers, Concat, IsFileExist, StrToTimeFormat (package time from its source; zone search linear), UUID64 and UUID32, ReadFile | MatchString; assembly of hash/crc32 |
| uuid | construction, parsing, printing, the sequence counter | the machine id and the clock (arbitrary inputs), blake2b |
| websocket | the handler | dial timeouts |

## Wrong programs

`seeded/LOG.jsonl` has one line for each edit of the model that was tried in a scratch copy. A proof that no longer goes
through is admitted there, and a theorem counts as failed when its own proof breaks or when it rests on a lemma whose
proof broke. What this shows is limited:

* A proof can break although its statement is still true of the edited program. So `theorems_failed` is an upper bound: it
  contains theorems that the edit does not contradict, and `killed` is no proof that a statement became false. Where an
  Example is among the failed (about 60 of 100 lines marked `killed`) the edited program was seen to answer differently.
* `killed` asks for a failed theorem of the property the edit was written against. Lines where this was decided by
  hand have a `note`.
* `not type correct`: the edit changed the type of a definition, so no theorem was tried. Each was repeated in another form.
* `survived`: no theorem failed. The two that remain change nothing that a property speaks of.
* `tightened`: no theorem of the property failed (at most an Example); the theorems named were added or made stronger afterwards.
