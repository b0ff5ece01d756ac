{"id": "C01", "title": "base58 round trip", "statement": "For every uint64 v, DecodeForInt64(EncodeForInt64(v)) returns (v, true).", "quantifier": "every uint64 value (2^64 of them), including 0 which encodes to the empty slice", "why_tests_cant": "2^64 inputs; a sampled test misses the carries between digits and the boundary near 2^64.", "anchors": ["base58/base58.go: EncodeForInt64, reverseBytes, DecodeForInt64"]}
{"id": "C02", "title": "base58 encoding is canonical and order preserving", "statement": "Every EncodeForInt64 output uses only the 58 alphabet characters, never starts with '1', has at most 11 characters, and distinct values give distinct outputs: a < b iff the encoding of a is shorter, or equally long and smaller byte by byte.", "quantifier": "every uint64 value and every pair of them", "why_tests_cant": "a statement about all pairs of 64-bit values.", "anchors": ["base58/base58.go: EncodeForInt64, b58Alphabet"]}
{"id": "C03", "title": "base58 decoding accepts exactly the alphabet and computes the positional value", "statement": "DecodeForInt64(bs) returns ok=false with value 0 iff some byte is outside the alphabet; otherwise it returns ok=true and the base-58 positional value of bs reduced modulo 2^64 (so over-long inputs are silently wrapped, and decoding is not injective).", "quantifier": "every byte slice of every length", "why_tests_cant": "unbounded input length; wrap-around only shows for values above 2^64.", "anchors": ["base58/base58.go: DecodeForInt64"]}
{"id": "C04", "title": "fixed-width integer codecs round trip", "statement": "BytesToInt64(Int64ToBytes(n)) = n for every int64 n, and Int64ToBytes(BytesToInt64(bs)) = bs for every 8-byte slice; the same for the 32-bit and 16-bit pairs; the bytes are the big-endian two's complement of n.", "quantifier": "every int64/int32/int16 and every 8/4/2-byte slice", "why_tests_cant": "2^64 values, sign handling on the arithmetic shift and on the OR of shifted bytes.", "anchors": ["util/num.go: Int64ToBytes, BytesToInt64, Int32ToBytes, BytesToInt32, Int16ToBytes, BytesToInt16"]}
{"id": "C05", "title": "integer decoders on short and long slices", "statement": "BytesToInt64/32/16 on a slice shorter than the width equals decoding the slice left-padded with zero bytes (so the result is its unsigned big-endian value, never sign extended); on a longer slice only the leading 8/4/2 bytes matter.", "quantifier": "every byte slice of every length", "why_tests_cant": "unbounded lengths.", "anchors": ["util/num.go: BytesToInt64, BytesToInt32, BytesToInt16"]}
{"id": "C06", "title": "int64 array codec round trip", "statement": "BytesToIntArray(IntArrayToBytes(xs)) = xs for every []int64; IntArrayToBytes has length 8*len(xs); BytesToIntArray on any slice decodes floor(len/8) big-endian words and ignores the trailing bytes.", "quantifier": "every int64 slice of every length, every byte slice", "why_tests_cant": "unbounded lengths.", "anchors": ["util/num.go: IntArrayToBytes, BytesToIntArray"]}
{"id": "C07", "title": "CRC8 computes the CRC of polynomial x^8+x^2+x+1", "statement": "For every byte slice, CRC8 (the table driven loop) equals the bit-serial remainder of the message times x^8 by x^8+x^2+x+1 (init 0, no reflection); CRC8(a++b) depends on a only through CRC8(a); CRC8(m ++ [CRC8(m)]) = 0.", "quantifier": "every byte slice of every length", "why_tests_cant": "a mistyped table entry only shows up for messages that hit it in the right state; the law ranges over all messages.", "anchors": ["util/encode.go: crc8Tab, CRC8"]}
{"id": "C08", "title": "CRC8 error detection", "statement": "Altering a message by any non-zero error burst of at most 8 bits, by any odd number of flipped bits, or by any two flipped bits less than 127 bit positions apart always changes CRC8.", "quantifier": "every message, every error position and pattern of the class", "why_tests_cant": "the classes are infinite (any message length, any position).", "anchors": ["util/encode.go: CRC8"]}
{"id": "C09", "title": "generated UUIDs carry the RFC 4122 version and variant bits", "statement": "For every sequence value and every hash output, NewUUID yields a 16-byte value with Version() = 4 and the two top bits of byte 8 equal to 10; String() always has length 36 with '-' exactly at positions 8, 13, 18, 23 and lower-case hex elsewhere.", "quantifier": "every hash value, every sequence number, every 16-byte UUID", "why_tests_cant": "2^128 values.", "anchors": ["uuid/uuid.go: NewUUID, String, Version"]}
{"id": "C10", "title": "UUID String/Parse round trip and the exact language Parse accepts", "statement": "Parse(u.String()) = u for every UUID; Parse(s) succeeds iff len(s) = 36 and the 32 bytes outside positions 8, 13, 18, 23 are hex digits (either case). The four separator bytes are not checked.", "quantifier": "every UUID, every string", "why_tests_cant": "2^128 UUIDs and unbounded strings.", "anchors": ["uuid/uuid.go: String, Parse"]}
{"id": "C11", "title": "UUIDs generated by one process are pairwise distinct", "statement": "Under every interleaving of concurrent NewUUID calls, any two of the first 2^62 UUIDs returned by one process differ, whatever the hash function returns.", "quantifier": "every schedule of any number of goroutines, every start sequence, every hash function", "why_tests_cant": "needs 2^62 calls and all schedules.", "anchors": ["uuid/uuid.go: NewUUID, localbase.uniq, localbase.getSeq"]}
{"id": "C12", "title": "UUID.Variant classifies the variant field", "statement": "Variant() returns 1 for every UUID whose byte 8 starts with bits 10, 2 for 110 and 0 for 0xx. (Violated: bytes 0xA0..0xBF, which start with 10, are reported as 0.)", "quantifier": "every UUID", "why_tests_cant": "tests on freshly generated UUIDs never reach byte 8 >= 0xA0 because the sequence starts below 2^60.", "anchors": ["uuid/uuid.go: Variant, NewUUID"]}
{"id": "C13", "title": "UUID.Equals is value equality", "statement": "u.Equals(v) holds iff v is non-nil and the 16 bytes of u and v agree. (Violated: the method compares pointers.)", "quantifier": "every pair of UUID pointers and heap contents", "why_tests_cant": "a test that compares a value with itself passes.", "anchors": ["uuid/uuid.go: Equals"]}
{"id": "C14", "title": "AES-CBC round trip", "statement": "For every iv string, key string and plaintext, DecrypterCbc(EncrypterCbc(src)) returns src with nil error; the ciphertext length is 16*(len(src)/16+1).", "quantifier": "every plaintext length and content, every key and iv", "why_tests_cant": "all plaintext lengths modulo 16 and contents; padding of exact multiples.", "anchors": ["keystore/aes.go: NewAes, EncrypterCbc, DecrypterCbc, AesEncrypter, AesDecrypter"]}
{"id": "C15", "title": "DecrypterCbc on arbitrary input", "statement": "DecrypterCbc panics exactly when the input is empty, is not a multiple of 16 bytes, or its decrypted last byte exceeds the length; otherwise it returns, with nil error, the decryption truncated by that last byte. (It never returns an error and never authenticates padding.)", "quantifier": "every byte slice", "why_tests_cant": "unbounded inputs; the panic set depends on the key.", "anchors": ["keystore/aes.go: DecrypterCbc"]}
{"id": "C16", "title": "EncrypterCbc leaves the caller's slice alone", "statement": "The call does not change any byte visible through the caller's src slice. (Violated when cap(src) leaves room for the padding: the plaintext is overwritten with ciphertext.)", "quantifier": "every slice: every backing array, offset, length and capacity", "why_tests_cant": "depends on spare capacity, which literals in tests do not have.", "anchors": ["keystore/aes.go: EncrypterCbc"]}
{"id": "C17", "title": "LimitMap is a map with put-recency eviction", "statement": "For every operation history, Get(k) returns the value of the last Put of k iff k has not been deleted or evicted since; Put returns the previous value; a Put of an absent key on a full map evicts exactly the key whose last Put is oldest; nothing else changes.", "quantifier": "every history of Put/Get/Del/RemoveMulti/Len calls, every key and value", "why_tests_cant": "unbounded histories.", "anchors": ["hashmap/limitmap.go: LimitMap.Get, Put, Del, RemoveMulti, Len"]}
{"id": "C18", "title": "LimitMap capacity", "statement": "Len() never exceeds capacity. (Violated by one: the map holds up to capacity+1 entries; max(1, capacity+1) is the exact bound.)", "quantifier": "every history, every capacity including 0 and negative", "why_tests_cant": "unbounded histories; off by one.", "anchors": ["hashmap/limitmap.go: LimitMap.Put"]}
{"id": "C19", "title": "LimitHashMap is, segment by segment, a FIFO-bounded map of hashed keys", "statement": "For every history, each segment holds its keys in first-insertion order; Put of a present key only replaces the value (no refresh of age) and returns the previous one; Put of an absent key into a full segment evicts that segment's oldest insertion and nothing in any other segment; Del/Clear/Contains/Get agree.", "quantifier": "every history, every segment count and capacity, every hash function", "why_tests_cant": "unbounded histories and all hash distributions.", "anchors": ["hashmap/limithashmap.go: Get, Put, Del, Contains, Clear, Len"]}
{"id": "C20", "title": "LimitHashMap capacity", "statement": "Len() never exceeds the requested capacity. (Violated when capacity < number of segments, e.g. NewLimitHashMap(10) can hold 64 entries; the exact bound is segments*max(1, capacity/segments).)", "quantifier": "every history, every capacity and segment count", "why_tests_cant": "depends on how keys spread over the segments.", "anchors": ["hashmap/limithashmap.go: NewLimitHashMapWithSegment, Put, Len"]}
{"id": "C21", "title": "LimitHashMap never confuses two keys", "statement": "Get(k) never returns a value that was put under a different key. Holds for all integer key types (the hash is injective); violated for string keys, where two strings with equal FNV-1a hash share one entry.", "quantifier": "every history, every pair of keys of every integer key type; all strings", "why_tests_cant": "needs a 64-bit hash collision.", "anchors": ["hashmap/limithashmap.go: hashFunc selection, Get, Put"]}
{"id": "C22", "title": "LimitHashMap stores nil interface values faithfully", "statement": "After Put(k, nil) with an interface value type, Get(k) reports presence and another Put(k, v) succeeds. (Violated: Get returns ok=false while Contains is true, and the second Put panics on the type assertion.)", "quantifier": "every history with nil interface values", "why_tests_cant": "only with interface-typed V and nil values.", "anchors": ["hashmap/limithashmap.go: Get, Put, Contains"]}
{"id": "C23", "title": "LinkedHashMap is a bounded map in most-recent-first order", "statement": "For every history of Put/LoadOrStore/Delete/MoveToFront/Clear/Get/Front/Back/Len, the map behaves as a list of distinct keys, newest first: Put moves the key to the front with the new value, a new key beyond the limit drops exactly the back entry, Len equals the number of entries, Get/Front/Back read that list.", "quantifier": "every history, every limit including 0 and negative", "why_tests_cant": "unbounded histories over a pointer structure.", "anchors": ["hashmap/linkedhashmap.go: Put, LoadOrStore, Get, Delete, Back, Front, Clear, Len, MoveToFront; container/list"]}
{"id": "C24", "title": "LinkedHashMap limit", "statement": "After every completed operation the number of entries is at most max(0, limit).", "quantifier": "every history and limit", "why_tests_cant": "unbounded histories.", "anchors": ["hashmap/linkedhashmap.go: Put, LoadOrStore, Len"]}
{"id": "C25", "title": "LinkedHashMap iteration order", "statement": "An iterator on an unmodified map returns every entry exactly once, newest first (Iterator(true)) or oldest first (Iterator(false)), then ok=false for ever; deleting the entry just returned does not disturb the rest of the iteration.", "quantifier": "every reachable map, every size, both directions, any number of Next calls", "why_tests_cant": "unbounded sizes.", "anchors": ["hashmap/linkedhashmap.go: Iterator, LinkedHashMapIterator.Next"]}
{"id": "C26", "title": "LinkedHashMap iterators never return entries that are no longer in the map", "statement": "Next returns only entries present at the time of the call. (Violated: an iterator parked on an entry that is then deleted returns it and stops early; after Clear an old iterator replays the old entries.)", "quantifier": "every interleaving of iterator steps and map updates", "why_tests_cant": "needs particular interleavings.", "anchors": ["hashmap/linkedhashmap.go: LinkedHashMapIterator.Next, Delete, Clear"]}
{"id": "C27", "title": "LoadOrStore returns the existing value and keeps it", "statement": "LoadOrStore(k, v) on a present key returns (old, true) and leaves the stored value unchanged. (Violated: it stores v, like a swap.)", "quantifier": "every state, key and value", "why_tests_cant": "the returned pair alone looks right.", "anchors": ["hashmap/linkedhashmap.go: LoadOrStore"]}
{"id": "C28", "title": "Map and MapL are finite maps", "statement": "For every history, Get/Has/Del/Put answer like a finite map; Put reports the previous value with b=true iff the key was present with a non-nil value; Range visits each present entry once and stops when the callback returns false.", "quantifier": "every history; keys and values including nil interface values", "why_tests_cant": "unbounded histories.", "anchors": ["hashmap/map.go: Map, MapL"]}
{"id": "C29", "title": "MapL.Len counts the entries", "statement": "Under every interleaving of concurrent Put and Del, the counter equals the number of entries plus/minus the calls that are between their two atomic steps; in particular, when no call is in flight Len() is exactly the number of entries.", "quantifier": "every schedule of any number of goroutines", "why_tests_cant": "all interleavings.", "anchors": ["hashmap/map.go: MapL.Put, Del, Len"]}
{"id": "C30", "title": "TreeMap iterates in key order", "statement": "For every history, Get/Put/Del behave as a finite map and Ascend (Descend) visits exactly the current entries in strictly increasing (decreasing) key order, stopping after the first callback that returns false.", "quantifier": "every history, every key order", "why_tests_cant": "unbounded histories.", "anchors": ["hashmap/treemap.go: Put, Get, Del, Ascend, Descend"]}
{"id": "C31", "title": "Consistenthash lookups return a live node, deterministically", "statement": "With at least one replica and one node on the ring, Get/GetStr return ok=true and a node that is currently in Nodes(); the answer depends only on the value and the ring, and is the owner of the first ring point at or clockwise after the value's hash.", "quantifier": "every history of Add/Del, every value", "why_tests_cant": "unbounded histories and all 2^64 hash positions.", "anchors": ["hashmap/consistenthash.go: Add, Get, GetStr, Del, Nodes"]}
{"id": "C32", "title": "Consistenthash minimal disruption", "statement": "If no two virtual points collide: adding a node only moves values to the new node; removing a node only moves values that were on it; adding then removing a node restores every lookup; the result does not depend on insertion order.", "quantifier": "every ring without hash collisions, every value, every node", "why_tests_cant": "for all rings and values.", "anchors": ["hashmap/consistenthash.go: Add, Del, Get"]}
{"id": "C33", "title": "Consistenthash lookups never panic", "statement": "Get on a ring without nodes returns ok=false. (Violated: after the last node is deleted the key slice is empty but non-nil and Get panics with index out of range.)", "quantifier": "every history", "why_tests_cant": "needs deletion of the last node.", "anchors": ["hashmap/consistenthash.go: Get, GetStr, GetNextNodeStr, Del"]}
{"id": "C34", "title": "Consistenthash deletion leaves the other nodes on the ring", "statement": "After Del(k) every other node still owns its virtual points. (Violated on CRC64 collisions: with 2 replicas each node n has a partner n' whose points coincide with n's; Add(n,n'), Del(n') leaves n with no point at all.)", "quantifier": "every history, every node id", "why_tests_cant": "needs the CRC64-ECMA partner of a node.", "anchors": ["hashmap/consistenthash.go: Add, Del, hash"]}
{"id": "C35", "title": "GetNextNodeStr returns distinct successor nodes", "statement": "GetNextNodeStr(v, step) with step >= 1 returns at most step nodes, pairwise distinct, all on the ring, none equal to the owner of v, in ring order. It does not wrap around: it can return fewer than step nodes although the ring has enough.", "quantifier": "every ring, value and step", "why_tests_cant": "all rings and positions.", "anchors": ["hashmap/consistenthash.go: GetNextNodeStr"]}
{"id": "C36", "title": "LruCache keeps the most recently used entries", "statement": "For every history with maxEntries > 0, the cache behaves as a list of distinct keys ordered by last touch (Add or successful Get) that drops its last entry when a new key overflows it; it never holds more than maxEntries; in a history without Remove/RemoveMulti it holds exactly the maxEntries most recently touched keys; Add(nil, v) is ignored; maxEntries = 0 means unlimited, a negative one means always empty.", "quantifier": "every history", "why_tests_cant": "unbounded histories.", "anchors": ["cache/lrucache.go: NewLruCache, Get, Add, Remove, RemoveMulti"]}
{"id": "C37", "title": "BloomFilter has no false negatives within its window", "statement": "Contains(x) is true whenever x was added and at most expectedItems further Adds happened since, for every hash function and history, provided the bit array is non-empty.", "quantifier": "every history, every hash function, every size", "why_tests_cant": "unbounded histories across the three-generation rotation.", "anchors": ["cache/bloom.go: Add, Contains, getBitIndex, setBit, testBit"]}
{"id": "C38", "title": "BloomFilter forgets old items", "statement": "Exactly two generations are kept: an answer of Contains never depends on items added three generations ago, and memory never exceeds two bit arrays after a rotation.", "quantifier": "every history", "why_tests_cant": "unbounded histories.", "anchors": ["cache/bloom.go: getBitIndex"]}
{"id": "C39", "title": "BloomFilter concurrent Adds lose nothing", "statement": "After concurrent Adds complete, Contains is true for all the added items. (Violated: setBit is an unsynchronised read-modify-write, a concurrent Add can overwrite another's bit.)", "quantifier": "every schedule", "why_tests_cant": "needs a particular interleaving of two word updates.", "anchors": ["cache/bloom.go: setBit"]}
{"id": "C40", "title": "Numlock gives mutual exclusion per key", "statement": "Under every interleaving, two goroutines never hold the lock of the same key (or of keys congruent modulo muxNum as uint64) at once; every int64 key maps to an existing mutex when muxNum > 0, so Lock/Unlock/TryLock never dereference nil; Unlock(key) releases exactly what Lock(key) acquired.", "quantifier": "every schedule, every int64 key including negative, every muxNum > 0", "why_tests_cant": "all schedules and keys.", "anchors": ["lock/lock.go: Numlock"]}
{"id": "C41", "title": "Strlock gives reader/writer exclusion per key", "statement": "Under every interleaving, while a goroutine holds the write lock of a key no other holds its read or write lock; any number of readers may hold it together; every string maps to an existing lock.", "quantifier": "every schedule, every string, every hash function", "why_tests_cant": "all schedules.", "anchors": ["lock/lock.go: Strlock"]}
{"id": "C42", "title": "LimitLock admits at most limit holders", "statement": "Under every interleaving of Lock (success or timeout) and Unlock, at most limit callers hold the lock; a timed-out Lock changes nothing; LockCount counts completed acquisitions; when nothing is in flight Cc equals the number of holders. Cc read during a concurrent lock/unlock can be off, even negative.", "quantifier": "every schedule, every limit", "why_tests_cant": "all schedules.", "anchors": ["lock/lock.go: LimitLock"]}
{"id": "C43", "title": "Await delivers the value to the waiter", "statement": "If a single waiter on idx registers and CloseAndPut(idx, v) then runs while no other call on idx is in flight, the waiter returns v with nil error, under every interleaving; the waiter never returns a value that was not put for its idx.", "quantifier": "every schedule", "why_tests_cant": "all schedules of waiter, closer, timer.", "anchors": ["lock/await.go: Get, CloseAndPut, Close, Wait, WaitWithCancel, SyncWait"]}
{"id": "C44", "title": "Await never strands a later waiter", "statement": "A waiter registered before CloseAndPut(idx, v) is always woken. (Violated: the deferred map delete of an earlier waiter on the same idx can unregister the later waiter's channel.)", "quantifier": "every schedule with reuse of idx", "why_tests_cant": "needs a particular interleaving.", "anchors": ["lock/await.go: Wait (defer at.m.Del)"]}
{"id": "C45", "title": "Await: two waiters on one idx", "statement": "Each of several waiters on one idx gets the value. (Violated: exactly one gets it; the others return the zero value with nil error.)", "quantifier": "every schedule", "why_tests_cant": "all schedules.", "anchors": ["lock/await.go: Wait, CloseAndPut"]}
{"id": "C46", "title": "FastAwait delivers once and never blocks the closer", "statement": "Under every interleaving, CloseAndPut/Close terminate without deadlock and without an escaping panic; a value is delivered to at most one waiter; a waiter returns only a value put for its id, the zero value on close, or a timeout error.", "quantifier": "every schedule", "why_tests_cant": "all schedules including double close.", "anchors": ["lock/fastawait.go: Wait, WaitWithCancel, CloseAndPut, Close"]}
{"id": "C47", "title": "FastAwait ids can be reused", "statement": "CloseAndPut(id, v) waits for the waiter of id to register. (Violated for an id that was awaited before: the bloom filter reports it finished, so a CloseAndPut arriving first drops the value.)", "quantifier": "every history that reuses an id", "why_tests_cant": "needs reuse and the closer arriving first.", "anchors": ["lock/fastawait.go: CloseAndPut, isDel, del"]}
{"id": "C48", "title": "Mmap.Append hands out disjoint, contiguous regions", "statement": "Under every interleaving of concurrent Appends, the successful ones receive pairwise disjoint regions that tile the file from the start offset without gaps in lock order, all inside the file; when all have returned, each region holds exactly that call's bytes and nothing outside the regions changed; an Append that does not fit changes nothing.", "quantifier": "every schedule, every data, every file size and start offset", "why_tests_cant": "all interleavings of the copies, which run outside the lock.", "anchors": ["mmap/mmap.go: Append"]}
{"id": "C49", "title": "Mmap.WriteAt", "statement": "WriteAt inside the file writes exactly [offset, offset+len) and moves the append offset to at least offset+len, so later Appends never overwrite it; beyond the end it returns an error and changes nothing. Negative or overflowing offsets panic instead of returning the error.", "quantifier": "every offset, length, file size", "why_tests_cant": "64-bit boundary cases.", "anchors": ["mmap/mmap.go: WriteAt"]}
{"id": "C50", "title": "Mmap sync covers the written bytes", "statement": "mmapSyncToDisk(n, len) passes msync a page-aligned start and a range that contains [n, n+len) and ends at n+len; after AppendSync/WriteAtSync returns nil, a crash at any later point preserves those bytes until they are overwritten. With len = 0 at a page-aligned end of file it panics. (Unix builds, and Windows for the durability; the Solaris build syncs nothing.)", "quantifier": "every offset, length, page size; every crash point", "why_tests_cant": "crash points cannot be enumerated by tests.", "anchors": ["mmap/sync_unix.go: mmapSyncToDisk", "mmap/mmap.go: AppendSync, WriteAtSync"]}
{"id": "C51", "title": "fastio.WriteSync returns the offset of its record", "statement": "Without I/O errors, under every interleaving of concurrent Write and WriteSync calls, when WriteSync(bs) returns offset o the file contains bs at [o, o+len(bs)); records are never torn, interleaved or duplicated.", "quantifier": "every schedule, every data", "why_tests_cant": "all interleavings of the direct path, the queue and the runner.", "anchors": ["fastio/fw.go: WriteSync, Write, ioWrite"]}
{"id": "C52", "title": "fastio.Write reaches the file", "statement": "Every Write that returned (len, nil) is in the file once no call is in flight. (Violated: a Write that queues its record after the runner's last decrement but before it resets ioend returns success and the record stays in the queue.)", "quantifier": "every schedule", "why_tests_cant": "needs a two-instruction window.", "anchors": ["fastio/fw.go: Write, ioWrite"]}
{"id": "C53", "title": "fastio survives an I/O error", "statement": "After a failed write later calls return an error or succeed. (Violated: the queue path returns without unlocking, every later call blocks for ever; flush errors are not reported to queued WriteSync callers.)", "quantifier": "every schedule with a failing write", "why_tests_cant": "needs fault injection at a particular point.", "anchors": ["fastio/fw.go: Write, WriteSync, ioWrite"]}
{"id": "C54", "title": "Buffer accumulates writes", "statement": "For every history of Write/WriteString/WriteByte/WriteInt32/Reset, Bytes/String/Len give the concatenation of what was written since the last Reset; a nil *Buffer returns an error from every write. WriteInt32 appends the 4 big-endian bytes of int32(i) (but reports 8).", "quantifier": "every history", "why_tests_cant": "unbounded histories.", "anchors": ["buffer/buffer.go"]}
{"id": "C55", "title": "Buffer.Read drains the buffer", "statement": "Repeated Read calls return the buffered bytes once, in order, then io.EOF. (Violated: a Read that empties the buffer does not consume it and EOF is never returned, so io.ReadAll on a non-empty buffer never terminates.)", "quantifier": "every buffer and read size sequence", "why_tests_cant": "non-termination cannot be tested.", "anchors": ["buffer/buffer.go: Read"]}
{"id": "C56", "title": "Pooled buffers are exclusive until freed", "statement": "Between NewBufferByPool and Free a buffer is never handed to another caller and starts empty, provided each buffer is freed at most once; a double Free hands the same buffer out twice.", "quantifier": "every history of Get/Free by any number of users", "why_tests_cant": "unbounded histories.", "anchors": ["buffer/buffer.go: NewBufferByPool, Free", "pool/buffer/pool.go: Get, Put"]}
{"id": "C57", "title": "BufferPool size classes", "statement": "Get(n) serves from the size class of n, so buffers returned with capacity c are reused only for requests of that class. (Violated: the router always selects class 0 for pools of up to 60 classes.)", "quantifier": "every pool size and length", "why_tests_cant": "the effect is only on reuse.", "anchors": ["pool/buffer/buffer.go: getRouter, Get, Put"]}
{"id": "C58", "title": "GoPool runs each submitted function at most once", "statement": "Under every interleaving of Go, dispatcher, workers and Close, no submitted function is started twice and only submitted functions are started.", "quantifier": "every schedule", "why_tests_cant": "all interleavings.", "anchors": ["pool/gopool/gopool.go"]}
{"id": "C59", "title": "GoPool runs every submitted function", "statement": "Every function passed to Go is eventually started once the other functions return. (Violated: lost wake-up between the tnum check and mux.Unlock; NewPool(0,n) dead-locks; Close drops functions already handed over.)", "quantifier": "every schedule", "why_tests_cant": "needs particular interleavings.", "anchors": ["pool/gopool/gopool.go: Go, _funcn, Close, put"]}
{"id": "C60", "title": "GoPool concurrency limit", "statement": "At most maxlimit functions run at once. (Violated: idle permanent workers are used in addition to maxlimit temporary ones; minlimit+maxlimit is a bound.)", "quantifier": "every schedule, all limits", "why_tests_cant": "needs a particular arrival order.", "anchors": ["pool/gopool/gopool.go: _funcn, put"]}
{"id": "C61", "title": "KeyBean thrift encoding round trips", "statement": "For every KeyBean without nil users (and with strings and maps within the protocol's 100 MiB), TDecode(TEncode(kb)) yields the same four maps, nil ones nil and empty ones empty, whatever order the Go map iteration writes the entries and whatever bytes follow; sections and fields in any order are accepted and unknown fields of any type are skipped; anything less than the whole is an error, and so is a KeyBean with a nil user; reading ends on every input.", "quantifier": "every KeyBean: any number of entries, any strings, any int8 types, any iteration order", "why_tests_cant": "unbounded structures.", "anchors": ["keystore/store.go: UserBean.Read/Write, KeyBean.Read/Write", "util/gob.go: TEncode, TDecode"]}
{"id": "C62", "title": "KeyStore persists what was put", "statement": "After PutAdmin/PutClient/PutMq/PutOther and a restart (Load), Get returns the value. (Violated: util.Zlib returns the buffer before the compressor is closed, so for small stores only the 2-byte header reaches the file and Load starts empty.)", "quantifier": "every store content", "why_tests_cant": "depends on the compressor's buffering.", "anchors": ["keystore/bin.go: Write, Read", "keystore/keystore.go", "util/compress.go: Zlib"]}
{"id": "C63", "title": "storeAdmin sections are independent maps", "statement": "For every history after Load, GetAdmin/GetClient/GetMq/GetOther return the last Put not followed by a Del of the same name in the same section, with the upper-case hex MD5 of the password; the lists contain exactly the present names; operations on one section never affect another.", "quantifier": "every history", "why_tests_cant": "unbounded histories.", "anchors": ["keystore/keystore.go"]}
{"id": "C64", "title": "KeyStore.Write is crash atomic", "statement": "A crash during Write leaves the old or the new content. (Violated: the file is truncated first.)", "quantifier": "every crash point", "why_tests_cant": "crash points.", "anchors": ["keystore/bin.go: Write"]}
{"id": "C65", "title": "compress round trips", "statement": "UnZlib(Zlib(x)) = x, UnGzip(Gzip(x)) = x with nil errors for every x, given the standard writers' contract that a closed stream decodes to what was written; truncated streams give an error.", "quantifier": "every input, every conforming streaming codec", "why_tests_cant": "all inputs.", "anchors": ["compress/compress.go: Zlib, UnZlib, Gzip, UnGzip"]}
{"id": "C66", "title": "ZlibLevel output can be decompressed", "statement": "compress.UnZlib(ZlibLevel(x, level)) = x. (Violated: the stream is flushed but not closed, so UnZlib reports unexpected EOF for every x; util.UnZlib, which ignores the error, does return x.)", "quantifier": "every input", "why_tests_cant": "all inputs.", "anchors": ["compress/compress.go: ZlibLevel, UnZlib", "util/compress.go: UnZlib"]}
{"id": "C67", "title": "util compression round trips", "statement": "util.UnGzip(util.Gzip(x)) = x (holds: the named result is filled by the deferred Close); util.UnZlib(util.Zlib(x)) = x (violated: the result slice is taken before the deferred Close). util.UnGzip/UnZlib report corrupted input (violated: read errors are dropped).", "quantifier": "every input", "why_tests_cant": "all inputs.", "anchors": ["util/compress.go: Zlib, UnZlib, Gzip, UnGzip"]}
{"id": "C68", "title": "Image.Resize never enlarges", "statement": "For every source size and every requested size and mode, the computed target never exceeds the source in either dimension.", "quantifier": "every w, h >= 1 (up to 2^31), every requested width/height, every mode, with float64 rounding", "why_tests_cant": "float rounding near integers over all pairs of sizes.", "anchors": ["image/image.go: praseMode, getMinAndkeepRatio, getMaxAndkeepRatio, getSideByThubnail, newSide4mode"]}
{"id": "C69", "title": "Image.Resize Mode0 fits the requested box", "statement": "The Mode0 target fits the (orientation-swapped) requested box. (Violated: the branch compares the requested sides with each other instead of with the source ratio.)", "quantifier": "every size", "why_tests_cant": "only some aspect ratios.", "anchors": ["image/image.go: getMinAndkeepRatio"]}
{"id": "C70", "title": "scaleDownToLimit respects the pixel limit", "statement": "For positive a, b, limit with a*b < 2^53 and limit < 2^50, the returned sides multiply to at most limit, and neither exceeds its input.", "quantifier": "every a, b, limit in range, with float64 rounding", "why_tests_cant": "float rounding.", "anchors": ["image/adjust.go: scaleDownToLimit"]}
{"id": "C71", "title": "crop arithmetic", "statement": "clamp(v, lo, hi) with lo <= hi returns the nearest point of [lo, hi]; cropImage succeeds iff the rectangle lies in the image and then returns exactly it; cropImageByAnchor returns the part of the rectangle that lies in the image; cropImageBySide returns a rectangle of the requested size (cut to the size of the image) as near to the requested place as fits. (Violated for images whose Bounds do not start at (0, 0), as frames of a GIF: the rectangle is taken in other coordinates.)", "quantifier": "every integer argument", "why_tests_cant": "all sign combinations.", "anchors": ["image/adjust.go: clamp, cropImage, cropImageByAnchor, cropImageBySide"]}
{"id": "C72", "title": "image type sniffing and option tables", "statement": "imageType(data) returns a format only if data starts with that format's magic, and every slice of at least 8 bytes starting with one of the listed magics is recognised; the ICO thumbnail list contains exactly the standard sizes smaller than both sides; Quality maps any quality > 10 into 1..10; the JPEG encoder gets 75 tenths and the GIF encoder 256 tenths of it, rounded down.", "quantifier": "every byte slice, every image size, every quality", "why_tests_cant": "all inputs.", "anchors": ["image/image.go: imageType, convertImageFormat (ico), Quality, QualityByBinary"]}
{"id": "C73", "title": "websocket handler lifecycle", "statement": "Under every interleaving of Send, Close and the read loop: OnOpen precedes any OnMessage; OnClose runs at most once, after the loop ended; after Close returns, Error() is non-nil for ever and every later Send fails without transmitting.", "quantifier": "every schedule and every sequence of received messages/errors", "why_tests_cant": "all interleavings.", "anchors": ["websocket/wshandle.go: NewHandler, Send, Close, read"]}
{"id": "C74", "title": "websocket/http TLS decision", "statement": "wss with CA files or CA bytes always verifies the peer against exactly these CAs; wss without them, and every https Post, skip verification; any other scheme than ws:/wss: is refused before dialling. (Violated: CertBytes are ignored if CertFiles are given too, and a URL with a capital HTTPS: is verified. True otherwise.)", "quantifier": "every URL and configuration", "why_tests_cant": "all configurations.", "anchors": ["websocket/wshandle.go: NewHandler", "httpclient/post.go: Post3"]}
{"id": "C75", "title": "ListenSignalEvent handles signals", "statement": "The handler runs for every delivered signal. (Violated: it runs for the first one only.)", "quantifier": "every signal sequence", "why_tests_cant": "unbounded sequences.", "anchors": ["gosignal/gosignal.go: ListenSignalEvent"]}
{"id": "C76", "title": "lock-protected collections are linearizable", "statement": "Every concurrent history of operations each of which runs its body under the object's mutex (LimitMap, LruCache, TreeMap, the locked LinkedHashMap methods, each LimitHashMap segment) can be explained by an order of the calls, made one after the other, that respects real-time order (linearizability); this holds across the segments of LimitHashMap for the methods that work on one key; no call blocks for ever.", "quantifier": "every schedule, any number of goroutines, any sequential object", "why_tests_cant": "all interleavings.", "anchors": ["hashmap/limitmap.go", "hashmap/treemap.go", "hashmap/linkedhashmap.go", "hashmap/limithashmap.go", "cache/lrucache.go"]}
{"id": "C77", "title": "LinkedHashMap.Get under concurrency", "statement": "Get observes the map as if Put were atomic. (Violated: Get takes no lock, between the insertion and the eviction steps of Put it sees limit+1 entries. With no more than limit different keys the map is linearizable with its Gets.)", "quantifier": "every schedule", "why_tests_cant": "needs a particular interleaving.", "anchors": ["hashmap/linkedhashmap.go: Get, Put"]}
{"id": "C78", "title": "util string helpers", "statement": "Concat is list concatenation; Md5Str/Sha1Str are the upper-case hex of the digest and injective in the digest; RandUint(n) returns a value below n for 1 <= n < 2^63 and panics otherwise; over the values of the random source each result is equally frequent; IsFileExist is true exactly for the files that os.Stat can see.", "quantifier": "all arguments", "why_tests_cant": "all inputs.", "anchors": ["util/encode.go: Concat, Md5Str, Sha1Str, RandUint, IsFileExist"]}
{"id": "C79", "title": "UUID Base58 form", "statement": "DecodeForInt64(u.Base58()) returns (uint64(u.Int64()), true) for every UUID.", "quantifier": "every UUID", "why_tests_cant": "2^64 values of the first half.", "anchors": ["uuid/uuid.go: Base58, Int64", "base58/base58.go"]}
{"id": "C80", "title": "fastio.Write does not keep the caller's slice", "statement": "After Write or WriteSync returned the caller may reuse the slice without affecting what is or will be written to the file (the io.Writer contract). (Violated for Write: a queued record refers to the caller's slice and may be written after Write returned.)", "quantifier": "every schedule, every data", "why_tests_cant": "needs the window in which a Write returns before its record is written.", "anchors": ["fastio/fw.go: Write, WriteSync, ioWrite"]}
{"id": "C81", "title": "GoPool survives panicking functions", "statement": "A function that panics inside the pool ends alone: the program goes on, the worker stays usable and later functions run. (Violated after TurnOff(true) and around Close: plain goroutines have no recover, put in the deferred function can send on the closed channel, and Go can send on the closed queue.)", "quantifier": "every schedule, any set of panicking functions", "why_tests_cant": "needs a panic at a particular moment of Close.", "anchors": ["pool/gopool/gopool.go: run, put, Go, Close"]}
{"id": "C82", "title": "Buffer.Bytes is stable until Reset or Free", "statement": "The slice returned by Bytes keeps its bytes while its buffer is written to and read from and whatever is done with other buffers, until that buffer is Reset or Freed. (After Reset the next write overwrites it.)", "quantifier": "every program over any number of buffers, every growth of append", "why_tests_cant": "depends on capacities and on which array append picks.", "anchors": ["buffer/buffer.go: Bytes, Write, Read, Reset, Free"]}
{"id": "C83", "title": "NewBufferBySlice leaves the caller's memory alone", "statement": "Writing to a buffer made by NewBufferBySlice(bs) does not change memory the caller still refers to. (Violated: it appends in place into the spare capacity of bs; the bytes bs itself had are kept.)", "quantifier": "every slice and capacity", "why_tests_cant": "depends on capacities.", "anchors": ["buffer/buffer.go: NewBufferBySlice, Write"]}
{"id": "C84", "title": "pool.Put clears the caller's pointer", "statement": "The generic pool's Put(&p) sets p to nil and later Puts of p return false, so as long as the pointer is not copied no history of Get and Put puts an element back twice or hands one element to two variables. (Not so when the pointer is copied, as Buffer.Free does with its receiver.)", "quantifier": "every history, any number of variables", "why_tests_cant": "unbounded histories.", "anchors": ["pool/buffer/pool.go: Get, Put", "buffer/buffer.go: Free"]}
{"id": "C85", "title": "Random helpers are fair and stay in range", "statement": "RandInt64Strict(i) panics for i <= 0 and otherwise returns a value in [0, i), every one of them equally often over the random bytes read, or 0 with the error of the random source.", "quantifier": "every int64 argument, every sequence of random bytes and read errors", "why_tests_cant": "the distribution and the rejection loop range over all byte sequences", "anchors": ["util/encode.go: RandInt64Strict"]}
{"id": "C86", "title": "FNV helpers distinguish single-byte changes", "statement": "FNVHash32 and FNVHash64 give different values for any two byte strings that differ in exactly one position.", "quantifier": "all byte strings, all positions, all byte values", "why_tests_cant": "an unbounded family of pairs of inputs", "anchors": ["util/encode.go: FNVHash32, FNVHash64"]}
{"id": "C87", "title": "Put does not panic once the store is loaded", "statement": "After Load, PutAdmin/PutClient/PutMq/PutOther never panic, whatever the file holds. (Violated: a file that decodes to a KeyBean with missing sections, e.g. the single byte 0, leaves nil maps and Put panics, as it does before Load. They do not panic if the file is empty, cannot be decoded or was written by this store.)", "quantifier": "every file content, every history", "why_tests_cant": "the panic needs a file no test writes.", "anchors": ["keystore/keystore.go: Load, PutAdmin, PutClient, PutMq, PutOther", "keystore/bin.go: Read"]}
{"id": "C88", "title": "KeyBean.Equals is equality of contents", "statement": "p.Equals(q) holds iff the four maps have the same content (nil and empty ones alike). (Violated: a missing key reads as nil or \"\", so {a: \"\"} equals {b: \"x\"}, and Equals is not symmetric. It holds if p has no nil users and no empty values.)", "quantifier": "every two KeyBeans", "why_tests_cant": "all pairs of maps.", "anchors": ["keystore/store.go: KeyBean.Equals, UserBean.Equals"]}
{"id": "C89", "title": "Scaling modes keep the aspect ratio", "statement": "For every mode but the two thumbnail modes the resulting image has the aspect ratio of the source up to one pixel (|w'*h - h'*w| <= max(w, h)), and both its sides are at least 1.", "quantifier": "every w, h from 1 to 2^24 (2^31 for the second part), every non-negative request, every mode, with float64 rounding", "why_tests_cant": "float rounding over all pairs of sizes.", "anchors": ["image/image.go: praseMode, getMinAndkeepRatio, getMaxAndkeepRatio, Encode"]}
{"id": "C90", "title": "ScaleLower fits its box", "statement": "With Options.ScaleLower = [a, b] the image fits into a x b (1 taken for 0), whatever the pixel limit.", "quantifier": "every size up to 2^31, every box, every limit, with float64 rounding", "why_tests_cant": "float rounding.", "anchors": ["image/adjust.go: scaleImageWithRatio"]}
{"id": "C91", "title": "ScaleUpper covers its box", "statement": "With Options.ScaleUpper = [a, b] and no pixel limit the image covers a x b. (Violated: a 1 x 93 image scaled to cover 1 x 93 loses a row through rounding. Never more than one row, and none if the ratios differ.)", "quantifier": "every size up to 2^31, every box, with float64 rounding", "why_tests_cant": "float rounding near integers.", "anchors": ["image/adjust.go: scaleImageWithRatio"]}
{"id": "C92", "title": "The pixel limit of the scale options is kept", "statement": "With a pixel limit the scaled image has at most that many pixels. (Violated for long thin images: a side rounded to 0 makes the resizer keep the ratio instead, so 1000 x 1 with limit 10 becomes 100 x 1.)", "quantifier": "every size, box and limit, with float64 rounding", "why_tests_cant": "needs a side that rounds to 0.", "anchors": ["image/adjust.go: scaleImageWithRatio, scaleDownToLimit"]}
{"id": "C93", "title": "ResizeGIF fits its target and never enlarges", "statement": "The frames of the resized GIF are at most as large as the union of the source frames in both directions and at most as large as each positive target side; the canvas holds every frame.", "quantifier": "every list of frames, every target, with float64 rounding", "why_tests_cant": "all frame lists, float rounding.", "anchors": ["image/image.go: ResizeGIF"]}
{"id": "C94", "title": "ResizeGIF reaches its target", "statement": "The GIF is scaled until one side reaches the target, and is never empty. (Violated: 22 x 22 to width 15 gives 14 x 14, and 49 x 49 to 1 x 1 gives frames of 0 x 0, by rounding down a product just below the integer. One side comes within one pixel.)", "quantifier": "every list of frames, every target, with float64 rounding", "why_tests_cant": "float rounding just below integers.", "anchors": ["image/image.go: ResizeGIF"]}
{"id": "C95", "title": "The sniffed type is the format of the file", "statement": "A file is reported as webp iff it is a RIFF file of type WEBP, and AVIF files are reported as avif. (Violated: every RIFF file counts as webp, e.g. WAV, and no AVIF file is recognised. Every WebP file is.)", "quantifier": "every byte slice", "why_tests_cant": "all inputs.", "anchors": ["image/image.go: imageType"]}
{"id": "C96", "title": "Every received message is handed to OnMessage exactly once, in order", "statement": "Every message received is handed to OnMessage exactly once, in the order received, and not after OnClose. (Violated: each call runs in a goroutine of its own, so the order can change and a message can be handed over after OnClose. Each message is handed over at most once, and exactly once when all goroutines have ended; in order if they come one at a time.)", "quantifier": "every schedule and every sequence of received messages/errors", "why_tests_cant": "all interleavings.", "anchors": ["websocket/wshandle.go: read"]}
{"id": "C97", "title": "Concurrent Sends put whole frames on the wire", "statement": "Under every interleaving the wire carries whole messages of Sends, each at most once, and a Send that returned before another began comes first.", "quantifier": "every schedule, any number of senders", "why_tests_cant": "all interleavings.", "anchors": ["websocket/wshandle.go: Send, sendws"]}
{"id": "C98", "title": "OnError gets the reason and Error keeps it", "statement": "OnError is given a non-nil reason, and Error() reports the network error that ended the connection. (Violated: after an own Close OnError can be given nil, and the final Close overwrites the network error by a fixed one. If nobody closes, OnError gets the network error.)", "quantifier": "every schedule and every sequence of received messages/errors", "why_tests_cant": "all interleavings.", "anchors": ["websocket/wshandle.go: read, Close, Error"]}
{"id": "C99", "title": "Post makes the request asked for and returns its body or an error", "statement": "For every body, URL, header map and cookie: one POST request with exactly this URL and body (none if empty) is made, or none and an error if the URL is invalid; the result is the whole body of the answer, whatever its status, or an error and no body; Post and Post2 set no headers.", "quantifier": "every body, URL, header map, cookie and server", "why_tests_cant": "all servers and inputs.", "anchors": ["httpclient/post.go: Post, Post2, Post3"]}
{"id": "C100", "title": "Headers and cookie given to Post3 are sent", "statement": "The request carries for each header name the value given for it, capitals aside, and the cookie after a Cookie header given; it does not depend on the order of the map. (Violated: names that differ in capitals only replace each other in map order. True otherwise.)", "quantifier": "every header map, every iteration order, every cookie", "why_tests_cant": "map iteration order is random; tests see one.", "anchors": ["httpclient/post.go: Post3"]}
{"id": "C101", "title": "LimitHashMap.Len and Clear are atomic", "statement": "A concurrent history with Len and Clear is linearizable. (Violated: Len can find 0 entries in a map that was never empty, and of two entries in the map together Clear can remove one and leave the other. Without Len and Clear it is true, see C76.)", "quantifier": "every schedule", "why_tests_cant": "needs a particular interleaving over two segments.", "anchors": ["hashmap/limithashmap.go: Clear, Len"]}
{"id": "C102", "title": "NewMMAP accepts exactly the usable start offsets", "statement": "NewMMAP accepts a start offset iff it lies inside the file, and the first Append that fits is then written there. (Violated: a negative start is accepted, and an Append that fits then panics after having moved the offset. True for starts that are not negative.)", "quantifier": "every file, every start offset, every byte slice", "why_tests_cant": "all offsets, including negative ones.", "anchors": ["mmap/mmap.go: NewMMAP, Append"]}
{"id": "C103", "title": "RSA round trip", "statement": "With a key pair of k bytes every message of at most k-11 bytes is encrypted without error, whatever the random bytes, and RsaDecrypt returns exactly it; longer messages are an error; decrypting gives a message exactly if the padding is right; the key file named is used, the built-in key for no name, and a missing file is an error.", "quantifier": "every key pair, message, stream of random bytes, file system", "why_tests_cant": "all messages and keys; needs number theory.", "anchors": ["keystore/key.go: RsaEncrypt, RsaEncryptByBytes, RsaDecrypt, RsaDecryptByBytes"]}
{"id": "C104", "title": "RSA failures are reported", "statement": "If RsaEncrypt or RsaDecrypt returns a nil error, its result is the ciphertext or the message. (Violated: a text that holds no PEM block, no parsable key or a key of another kind gives nil and a nil error. True if the text holds an RSA key.)", "quantifier": "every message, every key text", "why_tests_cant": "all texts, including ones nobody thought of testing.", "anchors": ["keystore/key.go: RsaEncryptByBytes, RsaDecryptByBytes, _recovr"]}
{"id": "C105", "title": "The built-in RSA keys belong together", "statement": "Every message of at most 117 bytes encrypted by RsaEncrypt(msg, \"\") is returned by RsaDecrypt(ct, \"\").", "quantifier": "every message of at most 117 bytes, every stream of random bytes", "why_tests_cant": "all messages.", "anchors": ["keystore/key.go: defaultPriKey, defaultPubKey, RsaEncrypt, RsaDecrypt"]}
{"id": "C106", "title": "WriteSync returns the offset at which the bytes can be read", "statement": "The offset WriteSync returns is that of its bytes: ReadAt there gives them, at any later time; the file holds what it held at first followed by everything written, in order; after Close every call fails. (Violated for New over a file not opened for appending once WriteAt is used: then bytes can be overwritten and offsets wrong. True for Open, and for New without WriteAt.)", "quantifier": "every file, every history of calls by one goroutine", "why_tests_cant": "all histories and contents.", "anchors": ["fastio/file.go: Open, New, Close", "fastio/fw.go: WriteSync, Write"]}
{"id": "C107", "title": "File.WriteAt writes where it is told", "statement": "WriteAt puts its bytes at the offset given and changes no other byte. (Violated: on every file from Open it fails, because such files are opened for appending. True for New over another file.)", "quantifier": "every file, history, byte slice and offset", "why_tests_cant": "all histories and offsets.", "anchors": ["fastio/file.go: WriteAt, Open"]}
{"id": "C108", "title": "File.Read gives the bytes of the file", "statement": "Reading a file from Open with Read gives its bytes from the start. (Violated: Open goes to the end, so Read gives io.EOF whatever the file holds and whatever is written. ReadAt gives every part exactly.)", "quantifier": "every file, every history of calls by one goroutine", "why_tests_cant": "all histories and contents.", "anchors": ["fastio/file.go: Read, ReadAt, New"]}
{"id": "C109", "title": "Snappy round trip", "statement": "SnappyDecode(SnappyEncode(x)) is x for every x with len(x) + len(x)/6 + 32 < 2^32, the encoding is of the snappy format and no longer than that bound (so the buffer made for it is large enough); for longer x SnappyEncode panics.", "quantifier": "every byte slice", "why_tests_cant": "all inputs; the matcher takes different ways for each.", "anchors": ["util/compress.go: SnappyEncode, SnappyDecode"]}
{"id": "C110", "title": "Snappy decoding accepts exactly the format", "statement": "The decoder behind SnappyDecode succeeds exactly on byte slices that are length and elements as the format says, and gives what they stand for; it never panics.", "quantifier": "every byte slice", "why_tests_cant": "all inputs, including malformed ones.", "anchors": ["util/compress.go: SnappyDecode"]}
{"id": "C111", "title": "SnappyDecode reports malformed input", "statement": "The result of SnappyDecode tells whether the input was of the format. (Violated: the error is dropped, and nil is also the answer for the encoding of no bytes. True if the answer is not nil.)", "quantifier": "every byte slice", "why_tests_cant": "all inputs.", "anchors": ["util/compress.go: SnappyDecode"]}
{"id": "C112", "title": "CRC32 and CRC64 are the standard checksums", "statement": "For every byte slice, of any length (short ones take the byte loop, long ones the loop over eight bytes), CRC32 is the IEEE 802.3 checksum and CRC64 the ECMA-182 one as ISO 3309 defines them (complement of the remainder of the polynomial division, bits in sending order), and no other value is; checksums can be computed piecewise; message and checksum together give a fixed residue; the consistent-hash ring uses the same function.", "quantifier": "every byte slice", "why_tests_cant": "all messages; tests compare a few known values.", "anchors": ["util/encode.go: CRC32, CRC64", "hashmap/consistenthash.go: hash"]}
{"id": "C113", "title": "CRC32 detects bursts, two and three flipped bits", "statement": "Two messages of the same length that differ only within 32 consecutive bits, or in exactly two bits less than 2^32 - 1 apart, or in exactly three bits less than 91639 apart, have different CRC32. (Not: two bits exactly 2^32 - 1 apart, nor every odd number of bits.)", "quantifier": "every pair of messages of equal length", "why_tests_cant": "all messages and error positions.", "anchors": ["util/encode.go: CRC32"]}
{"id": "C114", "title": "CRC64 detects bursts, odd and two-bit errors", "statement": "Two messages of the same length that differ only within 64 consecutive bits, or in an odd number of bits, or in exactly two bits less than 8589606914 apart, have different CRC64. (Not: two bits exactly that far apart.)", "quantifier": "every pair of messages of equal length", "why_tests_cant": "all messages and error positions.", "anchors": ["util/encode.go: CRC64"]}
{"id": "C115", "title": "CRC32 and CRC64 do not authenticate", "statement": "For every message and every wanted checksum there is exactly one suffix of 4 bytes (8 bytes) with which the message has that checksum.", "quantifier": "every byte slice, every 32-bit (64-bit) number", "why_tests_cant": "all messages and all targets.", "anchors": ["util/encode.go: CRC32, CRC64"]}
{"id": "C116", "title": "Quarter turns and mirrors lose nothing", "statement": "Encode with Options.Rotate a multiple of 90 (FlipH, FlipV as wished) and a pixel-keeping format moves every pixel to its place: the turns against the clock first, then left-right, then top-bottom. A second Encode (same options if exactly one mirror was asked for, the opposite angle otherwise) restores the picture, and any two such calls can be replaced by one.", "quantifier": "every image with a pixel, every multiple of 90 below 2^53 in size, every choice of mirrors, every decoder and encoder that keep pixels", "why_tests_cant": "all images and options.", "anchors": ["image/image.go: Encode, rotateImage, flipHImage, flipVImage"]}
{"id": "C117", "title": "Options.Rotate counts modulo 360", "statement": "Rotate: d and Rotate: d' give the same picture whenever d and d' differ by a multiple of 360. (Violated for ints that float64 cannot hold.)", "quantifier": "every image, all ints d, d'", "why_tests_cant": "all angles, floating point normalisation.", "anchors": ["image/image.go: rotateImage"]}
{"id": "C118", "title": "Gray is the nearest luma", "statement": "With Options.Gray each pixel gets, in all three channels, the whole number nearest to 0.299 r + 0.587 g + 0.114 b (either neighbour on a tie), alpha is kept; doing it twice changes nothing more, and what is brighter in each channel never becomes darker.", "quantifier": "every image of 8-bit channels", "why_tests_cant": "16.7 million colours, every image; floating point.", "anchors": ["image/adjust.go: convertToGrayByImage", "image/image.go: Encode"]}
{"id": "C119", "title": "Invert undoes itself and colours do not depend on places", "statement": "Encode with Options.Invert twice restores the picture; Gray and Invert before or after turns and mirrors give the same picture; the negative of the gray picture is the gray picture of the negative. (The last is violated by one step of brightness.)", "quantifier": "every image, every orientation", "why_tests_cant": "all colours, images, options.", "anchors": ["image/adjust.go: invertByImage, convertToGrayByImage", "image/image.go: Encode"]}
{"id": "C120", "title": "One Encode with many options equals many with one option", "statement": "Encode with any options and any requested size gives the picture that eleven Encode calls give, in the order crop by anchor, crop by side, scale to upper, scale to lower, resize, gray, invert, rotate, flip H, flip V, blur, provided that no intermediate picture is empty and the format keeps pixels. Without options the picture stays. A ResizeFilter that is none acts as MitchellNetravali.", "quantifier": "every image, all options, all filters and codecs meeting the contract", "why_tests_cant": "all combinations of options.", "anchors": ["image/image.go: Encode, parseImage, selectFilter"]}
{"id": "C121", "title": "Encode applies the options or reports an error", "statement": "Whenever Encode returns no error, its result shows the source with all options applied. (Violated: a crop outside of the image, an unknown Format, Quality and Colors are silently ignored.)", "quantifier": "every source and all options", "why_tests_cant": "all inputs; failures of the encoders.", "anchors": ["image/image.go: Encode, convertImageFormat"]}
{"id": "C122", "title": "The size Encode gives", "statement": "Gray, Invert, FlipH, FlipV and Blur keep the size given by crop, scale and resize; Rotate by a multiple of 90 keeps it or exchanges the sides. With ScaleLower as the last size step the result fits its box, with ScaleUpper alone it covers it but for at most one row, and a thumbnail not larger than the image has the requested size. (The last is violated when Rotate is an odd number of quarter turns.)", "quantifier": "every image and all options", "why_tests_cant": "all sizes and options.", "anchors": ["image/image.go: Encode"]}
{"id": "C123", "title": "Close makes the written bytes durable and gives the mapping back", "statement": "After a Close that returns nil, file and disk hold exactly what the calls have written, in the order of the calls (also those whose sync failed), the kernel holds no mapping of this Mmap, and nothing done with it later changes the file; until then Bytes shows these bytes and FileSize the size; Unmap and UnmapAndCloseFile keep the bytes in the file too.", "quantifier": "every file, every history of calls, every answer of msync, munmap and close, every write-back by the kernel", "why_tests_cant": "all histories and all failures of system calls.", "anchors": ["mmap/mmap.go: Close, Flush, Unmap, UnmapAndCloseFile"]}
{"id": "C124", "title": "Calls after Close report an error and do nothing", "statement": "After Unmap, UnmapAndCloseFile or a successful Close every later call returns an error and has no effect. (Violated: a write panics, after having moved the append offset. No later call changes the file or reports success.)", "quantifier": "every history after the release, every answer of the system", "why_tests_cant": "all histories.", "anchors": ["mmap/mmap.go: Append, WriteAt, Unmap, Close"]}
{"id": "C125", "title": "UnmapAndCloseFile closes the file", "statement": "After UnmapAndCloseFile the file is closed. (Violated after Close or Unmap, and when munmap fails: it stops at the refused munmap and the file stays open. True when it is the call that gives the mapping back.)", "quantifier": "every state, every answer of the system", "why_tests_cant": "failures of system calls, orders of calls.", "anchors": ["mmap/mmap.go: UnmapAndCloseFile"]}
{"id": "C126", "title": "A failing NewMMAP keeps nothing", "statement": "A NewMMAP that returns an error leaves no mapping behind. (Violated: a start offset outside of the file is noticed after the file was mapped, and that mapping is never given back. True for all other errors.)", "quantifier": "every file, every start offset, every answer of the system", "why_tests_cant": "leaks are not visible in results.", "anchors": ["mmap/mmap.go: NewMMAP"]}
{"id": "C127", "title": "Closing an Mmap in use is not fatal", "statement": "Giving the mapping back while other goroutines are in a call, or hold what Bytes returned, gives them an error or a panic, never the death of the process. (Violated: a goroutine that has taken its slice writes to memory that is gone, a fault Go cannot recover from; the same for a slice from Bytes. True if giving it back is the last thing anybody does; it is given back at most once.)", "quantifier": "every schedule, any number of goroutines", "why_tests_cant": "needs a particular interleaving.", "anchors": ["mmap/mmap.go: Append, WriteAt, Unmap, Close, Bytes"]}
{"id": "C128", "title": "StrToTimeFormat gives the time shown in Shanghai", "statement": "For every valid date and time from year 0 to 9999, StrToTimeFormat of its text YYYY-MM-DD HH:MM:SS returns an instant at which clocks in Shanghai show it (Gregorian calendar, zone history of Asia/Shanghai); if the text falls in an hour skipped by summer time, an instant at which they show at most an hour more. Since 1992 it is the same text in UTC less eight hours.", "quantifier": "every valid date and time of four-digit years", "why_tests_cant": "3 x 10^11 texts, leap years, zone changes, wrapping arithmetic beyond the year 2228.", "anchors": ["util/encode.go: StrToTimeFormat"]}
{"id": "C129", "title": "StrToTimeFormat keeps the order", "statement": "Alphabetically earlier texts give earlier times, different texts different times. (Violated in the hours skipped by summer time: 1986-05-04 02:30:00 comes out after 03:10:00 and equal to 03:30:00. True from 1992 on.)", "quantifier": "every pair of valid texts", "why_tests_cant": "all pairs.", "anchors": ["util/encode.go: StrToTimeFormat"]}
{"id": "C130", "title": "StrToTimeFormat accepts exactly its format", "statement": "A string is accepted iff it is YYYY-MM-DD HH:MM:SS of a valid date and time. (Violated: several blanks, an hour of one digit and a fraction of a second are accepted too; exactly these in addition.)", "quantifier": "every byte string, every zone", "why_tests_cant": "all strings.", "anchors": ["util/encode.go: StrToTimeFormat"]}
{"id": "C131", "title": "StrToTimeFormat does not panic", "statement": "Every string is answered by a time or an error. (Violated without a time zone database: every valid text panics, because the error of LoadLocation is dropped. True with one.)", "quantifier": "every byte string, with and without time zone database", "why_tests_cant": "depends on the system.", "anchors": ["util/encode.go: StrToTimeFormat"]}
{"id": "C132", "title": "MD5 and SHA1 tell inputs apart", "statement": "MD5(a) = MD5(b) or Md5Str(a) = Md5Str(b) only if a = b, and likewise for SHA1 and Sha1Str; so two different passwords given to PutAdmin leave different stores and two different iv strings make different ciphers.", "quantifier": "forall a b, forall continuations", "why_tests_cant": "Collisions are among 2^1024 inputs; the families of collisions have no bound on their length.", "anchors": ["util/encode.go: MD5, Md5Str, SHA1, Sha1Str", "keystore/keystore.go: PutAdmin", "keystore/aes.go: NewAes"]}
{"id": "C133", "title": "MD5 and SHA1 do not authenticate", "statement": "Whoever knows the digest and the length of a message m, but not m, can compute the digest of m followed by its padding and any text x; so MD5(secret+text) is no proof of knowing the secret.", "quantifier": "forall m x", "why_tests_cant": "A statement about all messages and all continuations.", "anchors": ["util/encode.go: MD5, SHA1"]}
{"id": "C134", "title": "Blake2b is BLAKE2b-256", "statement": "Blake2b gives 32 bytes and a nil error for every input, and two inputs with one digest come with a collision of the compression function of RFC 7693: padding and length give no collisions.", "quantifier": "forall inputs below 2^63 bytes", "why_tests_cant": "All pairs of inputs.", "anchors": ["util/encode.go: Blake2b"]}
{"id": "C135", "title": "UnZlib accepts exactly zlib streams", "statement": "UnZlib(b) returns (x, nil) exactly if b begins with a zlib stream (RFC 1950 with deflate of RFC 1951: stored, fixed and dynamic blocks) that stands for x; bytes behind it are ignored; every other input gives no bytes and an error. A stream stands for one x only. util.UnZlib reports an error only for a wrong header.", "quantifier": "forall byte slices, and every way Read cuts its output", "why_tests_cant": "All inputs, among them all damaged ones; tests only try streams that the encoder makes.", "anchors": ["compress/compress.go: UnZlib", "util/compress.go: UnZlib"]}
{"id": "C136", "title": "UnGzip accepts exactly gzip files", "statement": "UnGzip(b) returns (x, nil) exactly if b is a sequence of gzip members (RFC 1952, with all optional header fields) whose data put together are x; every other input, also with bytes behind the last member, gives no bytes and an error. util.UnGzip and CheckGzipType report an error exactly if b does not begin with a gzip header.", "quantifier": "forall byte slices, and every way Read cuts its output", "why_tests_cant": "All inputs.", "anchors": ["compress/compress.go: UnGzip", "util/compress.go: UnGzip, CheckGzipType"]}
{"id": "C137", "title": "Compressed data that lost their end are reported", "statement": "UnZlib and UnGzip report an error for every compressed stream of which a part at the end is missing, and whatever the decompressing functions return of it is a beginning of the data. With readers as they are, the assumptions of the round trips (C65-C67) are only about the format of what the writers emit.", "quantifier": "forall streams, all cuts, all writers", "why_tests_cant": "All streams and cuts.", "anchors": ["compress/compress.go: UnZlib, UnGzip", "util/compress.go: UnZlib, UnGzip"]}
{"id": "C138", "title": "How much memory decompression can take", "statement": "No decompressing function returns more than 1032 times the length of its input; and there is no smaller bound: for every n, n+21 bytes exist that UnZlib turns, without an error, into 1032n+517 bytes (n+33 for UnGzip).", "quantifier": "forall inputs; forall n", "why_tests_cant": "A bound over all inputs, and a family of any size.", "anchors": ["compress/compress.go: UnZlib, UnGzip", "util/compress.go: UnZlib, UnGzip"]}
{"id": "C139", "title": "Damaged gzip data are reported", "statement": "If the compressed data of a gzip file are replaced by others, UnGzip returns the new data exactly if checksum and length agree with the old ones, and no bytes and an error otherwise; in particular if the data differ within 32 consecutive bits, it reports an error.", "quantifier": "forall files and replacements", "why_tests_cant": "All replacements.", "anchors": ["compress/compress.go: UnGzip"]}
{"id": "C140", "title": "Functions may use the pool they run in", "statement": "Functions that themselves call Go (and Close, TurnOff), in any number and submitting themselves again as often as they like, are run at most once per call of Go, and only after the function or client that submitted them did so. With calls of Go only, at most minlimit+maxlimit functions run at once and no panic of the pool ends the program.", "quantifier": "every pool, every behaviour of the functions, all interleavings", "why_tests_cant": "Functions and calls have no bound, nor have the interleavings.", "anchors": ["pool/gopool/gopool.go: Go, run, _funcn, put"]}
{"id": "C141", "title": "Go called by a function returns", "statement": "A function that runs in the pool can submit further functions: its calls of Go return and the functions are run. (Violated: with NewPoolWithFuncLimit(1,1,n), for every n, a function that submits n+2 functions waits for ever, and with it the pool. True as long as there are not more than FuncLimit calls altogether.)", "quantifier": "every FuncLimit, all interleavings", "why_tests_cant": "Needs more than 131072 calls with NewPool, and the place where the pool stops depends on all of them.", "anchors": ["pool/gopool/gopool.go: NewPoolWithFuncLimit, Go, _funcn"]}
{"id": "C142", "title": "NewBloomFilter computes the sizes of the textbook and gives a filter that keeps what is added", "statement": "For n from 1 to 2^53 expected items and a rate p below 1 (at least 2^-100), NewBloomFilter allocates n ln(1/p) / (ln 2)^2 bits, rounded up to 64-bit words and less than one bit (and 2^-48 of the number) short of that, and uses log2(1/p) hash functions, rounded down, never fewer than 1 or more than 30; what is added to the filter is then reported as contained for the following n additions.", "quantifier": "all n and p, all implementations of math.Log with a relative error of at most 2^-52, all hash functions and histories of additions", "why_tests_cant": "The sizes come from float64 logarithms that are rounded, truncated and clamped; tests look at a few pairs, and the failing corners (rates near 1 for few items, no items) are not among them.", "anchors": ["cache/bloom.go:30-52"]}
{"id": "C143", "title": "A bloom filter has at most the false positive rate it was made for", "statement": "At any time, whatever different items have been added to NewBloomFilter(n, p), an item that was never added is reported as contained with a probability of at most p.", "quantifier": "all n, p and numbers of additions; the probability is over all hash values, independent and uniform", "why_tests_cant": "A probability over all hash tables: a test can only sample, with one seed, and rarely at the times when two full generations are searched.", "anchors": ["cache/bloom.go:30-52", "cache/bloom.go:58-127"]}
{"id": "C144", "title": "compress.UnSnappy decodes every snappy block", "statement": "compress.UnSnappy returns, without an error, the decoded bytes of every well-formed snappy block, the same as util.SnappyDecode does; so it gives back what util.SnappyEncode, or any other encoder of the format such as that behind compress.Snappy, was given.", "quantifier": "all snappy blocks, all byte slices, all encoders whose output is snappy", "why_tests_cant": "The decoder is for a superset of the format with other meanings for some bytes; that none of them is a meaning of snappy needs all blocks.", "anchors": ["compress/compress.go:85-92", "util/compress.go:76-86"]}
{"id": "C145", "title": "compress.UnSnappy reports what is not snappy", "statement": "For bytes that are not a well-formed snappy block compress.UnSnappy returns an error; it accepts no bytes for which another snappy decoder fails.", "quantifier": "all byte slices", "why_tests_cant": "The set of all malformed inputs cannot be enumerated, and the two decoders agree on the usual malformed inputs.", "anchors": ["compress/compress.go:89-92", "util/compress.go:80-86"]}
{"id": "C146", "title": "Decoding snappy takes memory in proportion to the input", "statement": "util.SnappyDecode and compress.UnSnappy allocate at most a constant times the number of bytes that they are given, whatever these are.", "quantifier": "all byte slices", "why_tests_cant": "A bound over all inputs, also the hostile ones; a test with real data sees the usual ratio of two to ten.", "anchors": ["compress/compress.go:89-92", "util/compress.go:80-86"]}
{"id": "C147", "title": "Resizing keeps one colour", "statement": "When every pixel of an image has the same colour and is not fully transparent, the image that Resize, Encode, ScaleUpper or ScaleLower makes of it has exactly that colour everywhere, with every filter and in every mode: no seams, no drift by rounding.", "quantifier": "all images, sizes, modes and filters", "why_tests_cant": "The weights of each place are float64 sums that depend on both sizes; a test covers a few pairs of sizes of some filters.", "anchors": ["image/image.go:209-241", "image/image.go:386-421", "image/adjust.go:90-122"]}
{"id": "C148", "title": "Resizing keeps one alpha", "statement": "An opaque image stays opaque and a fully transparent one fully transparent when it is resized, and an image whose pixels all have one alpha keeps that alpha everywhere, whatever its colours.", "quantifier": "all images, sizes, modes and filters", "why_tests_cant": "Rounding could lose a unit of alpha for some pair of sizes only; every pair of sizes has its own weights.", "anchors": ["image/image.go:209-241", "image/image.go:386-421"]}
{"id": "C149", "title": "Resizing makes no colours outside of what was there", "statement": "In an image with one alpha everywhere each channel of the resized image lies between the least and the greatest value that this channel had.", "quantifier": "all images, sizes, modes and filters", "why_tests_cant": "Overshoot appears next to sharp edges for some filters only; a test with a smooth picture does not show it.", "anchors": ["image/image.go:209-241", "image/image.go:386-421"]}
{"id": "C150", "title": "Colours of fully transparent pixels never show", "statement": "Two images that differ only in the colours of fully transparent pixels look the same after resizing, ScaleUpper, ScaleLower and Blur: equal pixels, or both fully transparent.", "quantifier": "all pairs of such images, all requests, filters and values of Blur", "why_tests_cant": "A relation between two runs on different images.", "anchors": ["image/image.go:209-241", "image/image.go:386-421", "image/adjust.go:84-122"]}
{"id": "C151", "title": "The Box filter averages", "statement": "Made k times smaller with the Box filter in a mode that does not cut, an image with one alpha everywhere has in each place the mean of the k x k pixels that were there, within 1.02 of 255 in each channel.", "quantifier": "all images, whole factors, requests in modes other than thumbnails", "why_tests_cant": "An error bound for float64 sums over all sizes and all pixel values.", "anchors": ["image/image.go:209-241", "image/image.go:391"]}
{"id": "C152", "title": "Blur keeps what is even", "statement": "Blur with a positive value keeps the size, keeps an image of one colour, keeps one alpha, and in an image with one alpha gives no channel a value outside of those it had.", "quantifier": "all images and positive float64 values", "why_tests_cant": "The weights depend on the value; the failing values are extreme.", "anchors": ["image/adjust.go:84-88", "image/image.go:228-231"]}
{"id": "C153", "title": "NearestNeighbor only picks pixels", "statement": "Every pixel of an image resized with NearestNeighbor, in any mode, is a pixel of the original.", "quantifier": "all images, sizes and modes", "why_tests_cant": "Every pair of sizes computes its own places in float64.", "anchors": ["image/image.go:209-241", "image/image.go:389"]}
{"id": "C154", "title": "What need not be resized is not", "statement": "A request whose result has the size of the image leaves every pixel as it is, whatever the filter; a thumbnail (modes 1 and 5) that is as wide or as high as the image shows exactly the middle of it.", "quantifier": "all images, requests and filters", "why_tests_cant": "Says of every filter and size that the resampling is not applied or does nothing; a test looks at one picture.", "anchors": ["image/image.go:232-241", "image/image.go:318-327", "image/image.go:562-577"]}
{"id": "C155", "title": "Turning an image makes up no colours", "statement": "After a turn by any number of degrees, in each channel no visible pixel has a value outside of those that the visible pixels had; no pixel is more opaque than the most opaque one was; an image of one colour keeps that colour wherever anything is visible.", "quantifier": "all images, all numbers of degrees", "why_tests_cant": "The pixels that are mixed and their weights differ for every angle and place; at the edges a pixel is mixed with the transparent surroundings.", "anchors": ["image/image.go:666-668", "image/image.go:250-252", "image/image.go:336-338"]}
{"id": "C156", "title": "A turn is a turn about the middle", "statement": "Each pixel of a turned image shows what the image, on an endless transparent sheet, shows at the place that a turn against the clock about the middle brings there: its alpha is that of the linear interpolation between the pixels within 0.5002, and its colour the mean weighted with alpha within half a step and a tenth divided by alpha. Inside an image with one alpha the alpha is kept exactly; pixels that come from a pixel or more outside are transparent.", "quantifier": "all images, all numbers of degrees, all pixels", "why_tests_cant": "An error bound over all angles and pixel values against the geometric definition.", "anchors": ["image/image.go:666-668", "image/image.go:250-252", "image/image.go:336-338"]}
{"id": "C157", "title": "A turned image is as large as it must be", "statement": "The result of a turn has the width and height of the smallest upright rectangle around the turned pixel middles plus one pixel, made whole with at most a tenth too little and at most nine tenths, or at a whole number one, too much; no pixel of the image comes to lie outside by more than 0.06 of a pixel.", "quantifier": "all images, all numbers of degrees", "why_tests_cant": "Sizes for every angle computed in float64; failures are off by one at particular angles.", "anchors": ["image/image.go:666-668", "image/image.go:250-252", "image/image.go:336-338"]}
{"id": "C158", "title": "A turn shows nothing of hidden colours", "statement": "Two images that differ only in the colours of fully transparent pixels look the same after a turn by any number of degrees.", "quantifier": "all pairs of such images, all numbers of degrees", "why_tests_cant": "A relation between two runs on different images.", "anchors": ["image/image.go:666-668", "image/image.go:250-252", "image/image.go:336-338"]}
{"id": "C159", "title": "UUID64 does not repeat", "statement": "No two calls of UUID64 (UUID.Int64 of a new UUID) in one process return the same number. (Violated: the four version bits overwrite four bits of the hash, so that only 2^60 numbers exist and more calls must repeat; two different hashes can give the same number. True: with uniform hashes n calls, in any interleaving, repeat with a chance of at most n(n-1)/2^61, and about that.)", "quantifier": "for all interleavings of any number of calls, all hash values", "why_tests_cant": "Repetitions are rare events over 2^60 values: no test run can show their absence or their rate.", "anchors": ["util/encode.go:127-129", "uuid/uuid.go:32-40", "uuid/uuid.go:56-58"]}
{"id": "C160", "title": "UUID32 does not repeat", "statement": "No two calls of UUID32 in one process return the same number. (Violated: with uniform hashes n calls repeat with a chance of at most n(n-1)/2^33, but 92683 calls already repeat more often than not.)", "quantifier": "for all numbers of calls, all hash values", "why_tests_cant": "A test that draws some numbers and sees no repetition says nothing about the rate.", "anchors": ["util/encode.go:131-133", "uuid/uuid.go:60-62", "uuid/uuid.go:158-163"]}
{"id": "C161", "title": "JSON written by JsonEncode is read back by JsonDecode", "statement": "For every value v built from nil, bool, float64, string, []any and map[string]any, JsonDecode[any](JsonEncode(v)) gives v again. (Violated: bytes that are no UTF-8 come back as U+FFFD, a value with NaN or an infinity gives no bytes and no error, nesting deeper than 10000 is written and cannot be read. Every other value comes back.)", "quantifier": "all values of any nesting, all strings of bytes, all maps", "why_tests_cant": "Values are nested without bound and strings are any bytes; a test tries a few of them, with well-behaved strings and numbers.", "anchors": ["util/gob.go:18-21", "util/gob.go:23-26"]}
{"id": "C162", "title": "JsonDecode reads exactly JSON", "statement": "JsonDecode[any](bs) succeeds exactly when bs is a JSON text of RFC 8259 (nested at most 10000 deep, numbers in the range of float64), and gives the value this text stands for; of members with the same name the last counts. (Violated: bytes that are no UTF-8 and single surrogates in strings are accepted and become U+FFFD. Otherwise it holds.)", "quantifier": "all byte strings", "why_tests_cant": "There are infinitely many texts, right and wrong ones; tests show some of each.", "anchors": ["util/gob.go:23-26"]}
{"id": "C163", "title": "JsonEncode's text can stand in a web page", "statement": "For every value, whatever bytes its strings and keys contain, the bytes JsonEncode returns are UTF-8 and contain none of <, >, &, U+2028 and U+2029.", "quantifier": "all values, all bytes in strings and keys", "why_tests_cant": "The claim is about what never appears, for every string, also for strings made by an attacker.", "anchors": ["util/gob.go:18-21"]}
{"id": "C164", "title": "What JsonDecode has read can be written and read again", "statement": "For every byte string bs from which JsonDecode[any] gives a value v without an error, JsonDecode[any](JsonEncode(v)) gives v.", "quantifier": "all byte strings", "why_tests_cant": "All texts are meant, also those that are no UTF-8, that repeat keys or use escapes; tests try some.", "anchors": ["util/gob.go:18-21", "util/gob.go:23-26"]}
{"id": "C165", "title": "ReadFile gives what is in the file", "statement": "ReadFile(path) of a file that exists returns, with a nil error, bytes that were the contents of the file at some moment of the call, whatever other programs do to it. (Violated: it may return a mixture of old and new contents, or zeros that nobody wrote when the file is cut meanwhile, and when the file loses whole pages the program is killed. When nobody changes the file the claim holds; when nobody shortens it each byte was in its place at some moment.)", "quantifier": "all contents, all writes and cuts by others, at all moments", "why_tests_cant": "The outcome depends on when others write to the file; a test cannot produce all interleavings, and the worst one kills the test.", "anchors": ["util/encode.go:136-145"]}
{"id": "C166", "title": "StringToSlice leaves strings alone", "statement": "The slice that StringToSlice(s) returns has the bytes of s, and nothing a program does with slices afterwards changes a string or ends the program without a panic. (Violated: an assignment to an element, or append to a slice made shorter, changes the string and its substrings; for a literal the program ends. It holds for programs that do neither; append to the slice itself is safe.)", "quantifier": "all programs of any length out of conversions, slicing, append, assignment", "why_tests_cant": "Strings share memory; what a later statement changes elsewhere shows only in the program that has the right statements in the right order.", "anchors": ["fast/fast.go:15-17"]}
{"id": "C167", "title": "MapL with NaN among its keys", "statement": "In a MapL[float64, V], a value that was put can be got, replaced and deleted under its key, and Len counts the keys. (Violated for NaN: every Put of NaN adds an entry, Len grows, Get, Has and Del never find it and no call ever removes it. It holds for all other keys, whatever is done with NaN; Len is always the number of entries Range visits.)", "quantifier": "all key types with Go's ==, all sequences of calls before and after", "why_tests_cant": "That an entry can never be removed is a statement about all later calls; tests use keys that equal themselves.", "anchors": ["hashmap/map.go:28-57", "hashmap/map.go:73-75"]}
{"id": "C168", "title": "TreeMap with NaN among its keys", "statement": "In a TreeMap[float64, V], Put, Get and Del concern the given key only. (Violated for NaN: on a tree of one node that is not empty, Put of NaN replaces the entry of the greatest key, Get of NaN gives that entry's value, Del of NaN deletes it; with NaN alone in the tree, Get of every key gives NaN's value and Del of every key empties the tree. It holds for keys in a strict total order.)", "quantifier": "all degrees, all trees of one node (fewer than 2*degree-1 entries before Put), all keys", "why_tests_cant": "Tests use keys that are ordered; the entry lost depends on what is in the tree.", "anchors": ["hashmap/treemap.go:21-23", "hashmap/treemap.go:37-63"]}
{"id": "C169", "title": "LimitMap with NaN among its keys", "statement": "A LimitMap[float64, V] of capacity c holds the c+1 keys put or replaced last, and Len is at most c+1. (Violated with NaN: every Put of NaN adds a key that nothing removes, so Len is at least the number of such Puts; after c+1 of them, and c+1 times Put and Del of another key, the map has room for one key only, whatever c is. It holds without NaN, see C17; a key equal to itself is always found right after its Put; never more than c+1 keys that differ are found, and Len is at most c+1 and the number of Puts of NaN.)", "quantifier": "all capacities, all key types with Go's ==, all sequences of Put and Del", "why_tests_cant": "The room is lost for good only after as many calls as the capacity has room, and only with keys that tests do not use.", "anchors": ["hashmap/limitmap.go:37-78", "hashmap/limitmap.go:94-98"]}
{"id": "C170", "title": "LinkedHashMap after a Put that panicked", "statement": "When Put on a LinkedHashMap[any, V] panics because its key cannot be hashed, and the caller recovers, the map is as before. (Violated: the entry stays in the list, Front gives it and Len does not count it; after it, as many Puts of new keys as the limit go well and the next one panics although its key can be hashed, leaving Len above the limit. It holds for Get of every key and for Delete; nothing panics while all keys can be hashed; and Len is above the limit by no more than the number of such Puts.)", "quantifier": "all limits, all keys, all sequences of Put and Delete before", "why_tests_cant": "The panic comes in a later call for another key, after as many calls as the limit; tests use keys that can be hashed.", "anchors": ["hashmap/linkedhashmap.go:37-54", "hashmap/linkedhashmap.go:80-100", "hashmap/linkedhashmap.go:114-140"]}
