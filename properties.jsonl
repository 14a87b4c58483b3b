{"id": "C01", "title": "Magma decryption inverts encryption", "statement": "If BlkEncrypted(b,key).value() returns a block c, then BlkDecrypted(c,key).value() returns exactly b, and conversely encrypting a decrypted block gives the original back. This holds for every key material and every Sbox, including substitution tables that are not permutations.", "quantifier": "every 64-bit block, every LazyKey (any KeyData, any Sbox)", "why_tests_cant": "2^64 blocks times 2^256 keys times arbitrary substitution tables; the suite checks one vector.", "anchors": ["goost/magma/BlkEncrypted.cpp: BlkEncrypted", "goost/magma/BlkDecrypted.cpp: BlkDecrypted", "goost/magma/BlkForwarded.cpp", "goost/magma/BlkBackwarded.cpp", "goost/magma/BlkSwapped.cpp"]}
{"id": "C02", "title": "Magma encryption is GOST R 34.12-2015 Magma", "statement": "For every key given as 64 hexadecimal digits, BlkEncrypted and BlkDecrypted compute exactly the standard's 32-round Feistel network with the standard key schedule (K1..K8 three times, then K8..K1), the id-tc26-gost-28147-param-Z substitution, addition modulo 2^32 and rotation by 11.", "quantifier": "every 64-hex-digit key string, every 64-bit block", "why_tests_cant": "A handful of official vectors cannot exclude an error that appears only for particular carries, key words or rounds.", "anchors": ["goost/magma/BlkEncrypted.cpp", "goost/magma/LazyKey.cpp: LazyKey::transform", "goost/magma/SboxR3412.cpp", "goost/magma/SboxNibble.cpp", "goost/magma/SboxTwisted.cpp", "goost/magma/KeyDataString.cpp"]}
{"id": "C03", "title": "The two Magma encryption paths agree", "statement": "EncryptionBase::transform(x) returns the 64-bit number whose halves are BlkEncrypted(BlkRaw(x),key).value(), for every LazyKey; so data written through ECBSink (which uses one path) can be decrypted by ECBSource (which uses the other).", "quantifier": "every 64-bit block, every LazyKey", "why_tests_cant": "Equality of two separately written 32-line round sequences over all keys.", "anchors": ["goost/magma/EncryptionBase.cpp: transform", "goost/magma/BlkEncrypted.cpp"]}
{"id": "C04", "title": "Magma substitution layer is a nibble-wise permutation followed by rotate-left 11", "statement": "SboxR3412::transform replaces each of the eight nibbles by its table entry and rotates the 32-bit result left by eleven bits; it never fails, stays within 32 bits and is a permutation of the 32-bit words.", "quantifier": "every 32-bit word", "why_tests_cant": "2^32 inputs; injectivity is a statement about all pairs.", "anchors": ["goost/magma/SboxR3412.cpp", "goost/magma/SboxTwisted.cpp: transform", "goost/magma/SboxNibble.cpp: transform, transformN"]}
{"id": "C05", "title": "Byte-packed and nibble substitution tables are interchangeable", "statement": "If a 64-byte table packs the eight 16-entry nibble tables (byte 4j+k holds entry j of table 2k in its low nibble and of table 2k+1 in its high nibble), then SboxByte over the packed table and SboxNibble over the eight tables return the same word for every input. In particular the packed R3412 table used by key containers equals SboxR3412.", "quantifier": "every eight nibble tables, every 32-bit word", "why_tests_cant": "All tables and all words.", "anchors": ["goost/magma/SboxByte.cpp", "goost/magma/SboxByte64Tab.cpp: translate", "goost/magma/SboxNibble.cpp"]}
{"id": "C06", "title": "Magma hex keys are read big-endian word by word, and wrong sizes are rejected", "statement": "KeyDataString::key(i) on a string of 64 hexadecimal digits (either case) returns, for i in 0..7, the number written by digits 8i..8i+7; a string of any other length, or an index outside 0..7, throws runtime_error.", "quantifier": "every string, every int index", "why_tests_cant": "All strings and all indices.", "anchors": ["goost/magma/KeyDataString.cpp: key"]}
{"id": "C07", "title": "Magma hex keys with non-hexadecimal characters are rejected", "statement": "A key string that contains a character that is not a hexadecimal digit makes KeyDataString::key throw instead of producing a key word.", "quantifier": "every 64-character string that is not all hex digits", "why_tests_cant": "Requires all malformed strings.", "anchors": ["goost/magma/KeyDataString.cpp: key"]}
{"id": "C08", "title": "KeyCachedData answers consistently over every call history", "statement": "After the first successful call, every later KeyCachedData::key(i), i in 0..7, in any order and any number, returns the word the wrapped KeyData returned for i during the first load, even if the wrapped object would now answer differently or throw. The wrapped object is asked for indices 0..7 once each, in that order, per load; a load aborted by an exception stores nothing as valid and the next call loads again.", "quantifier": "every wrapped KeyData (also stateful or throwing), every sequence of calls", "why_tests_cant": "Quantifies over call histories and over arbitrary, even nondeterministic, collaborators.", "anchors": ["goost/magma/KeyCachedData.cpp: key", "goost/magma/KeyCachedData.h: CachedData"]}
{"id": "C09", "title": "ECBSink encrypts block by block, independent of how the data is split", "statement": "Writing data whose length is a multiple of 8 sends to the underlying sink exactly the encrypted 8-byte blocks, in order, one write per block; splitting the data into several multiple-of-8 writes changes nothing. A write whose length is not a multiple of 8 throws runtime_error.", "quantifier": "every byte sequence, every split into writes, every Key, every underlying sink", "why_tests_cant": "All data lengths and all partitions.", "anchors": ["goost/magma/ECBSink.cpp: write, finalize", "goost/magma/EncryptionBase.cpp"]}
{"id": "C10", "title": "ECB round trip through the stream API", "statement": "Reading an ECBSource over the ciphertext produced by an ECBSink with the same LazyKey, until an empty result, yields the original data, for every data whose length is a multiple of 8 and every read size of at least 8.", "quantifier": "every multiple-of-8 byte sequence, every LazyKey, every sequence of read sizes >= 8, every underlying source that delivers the bytes", "why_tests_cant": "All lengths, keys and read patterns.", "anchors": ["goost/magma/ECBSink.cpp", "goost/magma/ECBSource.cpp: read"]}
{"id": "C11", "title": "ECBSource rejects ciphertext that ends in an incomplete block", "statement": "When the underlying source ends with 1..7 trailing bytes, ECBSource::read reports an error rather than returning or touching bytes that are not part of the input.", "quantifier": "every ciphertext whose length is not a multiple of 8", "why_tests_cant": "Out-of-bounds accesses of a few bytes are invisible to ordinary tests.", "anchors": ["goost/magma/ECBSource.cpp: read"]}
{"id": "C12", "title": "ECBSource keeps its contract after end of data", "statement": "Once ECBSource::read has returned an empty result, the source it returned behaves like an ECBSource at end of data: a request smaller than 8 is still rejected with runtime_error and bytes that become available later are still decrypted.", "quantifier": "every underlying source, every history of reads across end of data", "why_tests_cant": "A statement about what happens after every possible history.", "anchors": ["goost/magma/ECBSource.cpp: read (return {p, s})"]}
{"id": "C13", "title": "CFB encryption does not depend on how writes are split", "statement": "For magma::CFBSink and gost89::CFBSink, any sequence of write calls, including empty and 1-byte ones, leaves the sink in the same state and has sent the same sequence of 8-byte ciphertext blocks to the underlying sink as one write of the concatenated data.", "quantifier": "every data, every partition into writes, every key, every underlying sink including failing ones", "why_tests_cant": "The number of partitions is exponential in the length.", "anchors": ["goost/magma/CFBSink.cpp: write", "goost/gost89/CFBSink.cpp: write"]}
{"id": "C14", "title": "CFB encryption of whole blocks follows the standards", "statement": "On data whose length is a multiple of 8, magma::CFBSink produces the GOST R 34.13-2015 cipher-feedback ciphertext with a 128-bit shift register (ivl then ivr) and gost89::CFBSink produces the GOST 28147-89 ciphertext with a 64-bit register; the ciphertext has the length of the plaintext.", "quantifier": "every multiple-of-8 data, every LazyKey, every initial register", "why_tests_cant": "All lengths, keys and registers.", "anchors": ["goost/magma/CFBSink.cpp", "goost/gost89/CFBSink.cpp"]}
{"id": "C15", "title": "CFB round trip for every data length", "statement": "Writing data to a CFBSink, finalizing it, and reading the resulting bytes through a CFBSource with the same key and register returns the original data, whatever its length.", "quantifier": "every byte sequence of every length, every LazyKey, every register", "why_tests_cant": "All lengths; the suite only uses whole blocks.", "anchors": ["goost/magma/CFBSink.cpp: finalize", "goost/magma/CFBSource.cpp: read", "goost/gost89/CFBSink.cpp: finalize", "goost/gost89/CFBSource.cpp: read"]}
{"id": "C16", "title": "CFBSource output does not depend on read sizes", "statement": "Over an underlying source that delivers n ciphertext bytes with n a multiple of 8, any sequence of CFBSource::read(size) calls returns consecutive pieces of one fixed plaintext, each of exactly min(size, remaining) bytes, and then empty results.", "quantifier": "every sequence of read sizes (including 0 and SIZE_MAX), every whole-block ciphertext, every LazyKey", "why_tests_cant": "All read patterns.", "anchors": ["goost/magma/CFBSource.cpp: read", "goost/gost89/CFBSource.cpp: read"]}
{"id": "C17", "title": "CFBSource::read terminates and never reads ahead", "statement": "Against every underlying source whose reads return at most 8 bytes, read(size) terminates after at most size+1 inner reads, and on whole blocks performs exactly ceil((size - buffered)/8) inner reads when enough data is available.", "quantifier": "every underlying source, every requested size", "why_tests_cant": "Termination for all sources, including endless ones.", "anchors": ["goost/magma/CFBSource.cpp: read", "goost/gost89/CFBSource.cpp: read"]}
{"id": "C18", "title": "CFB decryption confines ciphertext corruption", "statement": "If one 8-byte ciphertext block i is altered, gost89::CFBSource returns different plaintext only in blocks i and i+1, and magma::CFBSource only in blocks i and i+2; block i differs by exactly the same bits; every other block is unchanged.", "quantifier": "every ciphertext, every altered block position and value, every LazyKey", "why_tests_cant": "All ciphertexts and all alterations.", "anchors": ["goost/magma/CFBSource.cpp: read", "goost/gost89/CFBSource.cpp: read"]}
{"id": "C19", "title": "A failing underlying sink has received a prefix of the ciphertext and nothing else", "statement": "If the underlying sink throws during some write, the exception reaches the caller and the underlying sink has been given exactly the successive ciphertext blocks up to and including the failing one; the same holds when ECBSink throws because the data is unaligned: all complete blocks have already been sent.", "quantifier": "every data, every point at which the underlying sink fails", "why_tests_cant": "All crash points.", "anchors": ["goost/magma/ECBSink.cpp: write", "goost/magma/CFBSink.cpp: write", "goost/gost89/CFBSink.cpp: write"]}
{"id": "C20", "title": "Stream modes accept every Key implementation", "statement": "ECBSink, ECBSource, CFBSink and CFBSource take shared_ptr<const Key>; each works with any implementation of the Key interface, not only LazyKey.", "quantifier": "every Key implementation", "why_tests_cant": "Quantifies over user-defined subclasses.", "anchors": ["goost/magma/CFBSink.cpp: dynamic_pointer_cast", "goost/magma/CFBSource.cpp", "goost/magma/ECBSource.cpp", "goost/magma/ECBSink.cpp", "goost/gost89/CFBSink.cpp", "goost/gost89/CFBSource.cpp"]}
{"id": "C21", "title": "magma::Imit has defined behaviour and equals the GOST R 34.13-2015 MAC on whole blocks", "statement": "For every message that is a non-empty sequence of whole 8-byte blocks, Imit::value() has defined behaviour and returns the full-width standard MAC: CBC-MAC with the last block masked by K1, where K1 is E(0) doubled in GF(2^64) with constant 0x1b.", "quantifier": "every non-empty multiple-of-8 message, every LazyKey", "why_tests_cant": "Undefined behaviour that happens to give the right answer on one compiler passes any test.", "anchors": ["goost/magma/Imit.cpp: Imit::value, BlkImitShifted, BlkImitFinalKey", "goost/magma/BlkShifted.cpp: value"]}
{"id": "C22", "title": "magma::Imit separates messages with incomplete last blocks", "statement": "For messages whose last block is incomplete, Imit pads as the standard requires (one 1-bit, then zeros, key K2), so that messages of different length do not get equal MACs merely because one is the other extended with zero bytes.", "quantifier": "every message with an incomplete last block, every LazyKey", "why_tests_cant": "All messages; the suite has no incomplete block.", "anchors": ["goost/magma/Imit.cpp: Imit::value"]}
{"id": "C23", "title": "MACs detect every change confined to one block", "statement": "Two whole-block messages of equal length that differ in exactly one block have different MACs under the same key, for magma::Imit and kuznyechik::Imit.", "quantifier": "every key, every message, every block position, every altered value", "why_tests_cant": "A statement about all pairs of messages and all keys.", "anchors": ["goost/magma/Imit.cpp", "goost/kuznyechik/Imit.cpp"]}
{"id": "C24", "title": "magma::Imit authenticates everything the source delivers", "statement": "The MAC depends on all bytes the Source would deliver, also when a read(8) returns fewer than 8 bytes before the end of data.", "quantifier": "every Source, every pattern of short reads", "why_tests_cant": "All short-read schedules.", "anchors": ["goost/magma/Imit.cpp: Imit::value"]}
{"id": "C25", "title": "gost89::DataImit is total and equals the GOST 28147-89 MAC", "statement": "DataImit::value() has defined behaviour for data of every length including zero and returns the 8-byte result of the 16-round GOST 28147-89 MAC over the data zero-padded to whole blocks and at least two blocks.", "quantifier": "every byte sequence, every LazyKey", "why_tests_cant": "All lengths and keys; the class has no test at all.", "anchors": ["goost/gost89/DataImit.cpp: value", "goost/gost89/ImitedBlock.cpp: value"]}
{"id": "C26", "title": "Kuznyechik encryption is GOST R 34.12-2015 Kuznyechik", "statement": "For every key of 64 hexadecimal digits and every 128-bit block, BlkEncrypted computes exactly the standard's nine LSX rounds and final key addition.", "quantifier": "every 64-hex-digit key, every 128-bit block", "why_tests_cant": "2^384 cases.", "anchors": ["goost/kuznyechik/Key.cpp: encrypt, encryptStep", "goost/kuznyechik/BlkEncrypted.cpp", "goost/kuznyechik/BlkS.cpp", "goost/kuznyechik/BlkL.cpp", "goost/kuznyechik/BlkR.cpp", "goost/kuznyechik/BlkXored.cpp"]}
{"id": "C27", "title": "Kuznyechik encryption is a permutation of the 128-bit blocks under every key", "statement": "For every fixed key, distinct blocks have distinct encryptions and every 128-bit block is the encryption of some block, so CTR ciphertext and ECB use are decryptable.", "quantifier": "every key, every pair of blocks", "why_tests_cant": "Bijectivity over 2^128 blocks; the library has no decryption to test against.", "anchors": ["goost/kuznyechik/Key.cpp: encrypt", "goost/kuznyechik/BlkS.cpp: sbox", "goost/kuznyechik/BlkR.cpp: value"]}
{"id": "C28", "title": "Kuznyechik round keys follow the standard key schedule", "statement": "The ten round keys used by Key are the standard's K1..K10 obtained from the two key halves by four groups of eight Feistel steps with constants C1..C32, C_i = L(i); BlkIterKey(ka,kb,c1,c2) computes the left half after steps c1..c2.", "quantifier": "every key pair, every constant range", "why_tests_cant": "All keys and ranges.", "anchors": ["goost/kuznyechik/Key.cpp: Key::Key", "goost/kuznyechik/BlkIterKey.cpp: generate"]}
{"id": "C29", "title": "Kuznyechik linear layer is multiplication in GF(2^8) and is linear and invertible", "statement": "The byte product in BlkR is multiplication of polynomials modulo x^8+x^7+x^6+x+1; BlkR and BlkL commute with BlkXored and are bijections on 128-bit blocks.", "quantifier": "every pair of bytes, every pair of 128-bit blocks", "why_tests_cant": "All pairs of blocks.", "anchors": ["goost/kuznyechik/BlkR.cpp: gmul, value", "goost/kuznyechik/BlkL.cpp: transform"]}
{"id": "C30", "title": "Counter blocks never repeat", "statement": "BlkIncremented adds one modulo 2^128. The counters of StCTREncrypted are iv*2^64 + i; two positions below 2^128 of one stream never share a counter, and streams with different iv never share a counter in their first 2^64 blocks.", "quantifier": "every iv, every pair of positions, every 128-bit block", "why_tests_cant": "Position pairs up to 2^128.", "anchors": ["goost/kuznyechik/BlkIncremented.cpp: value", "goost/kuznyechik/StCTREncrypted.cpp: ItCTREncrypted::next, StCTREncrypted::iter"]}
{"id": "C31", "title": "CTR encryption is its own inverse and keeps the shape of the stream", "statement": "Wrapping a stream in StCTREncrypted twice with the same key and iv yields the original block values; the encrypted stream has the same number of blocks, the same last()/size() answers, and block i is the input block xored with the encryption of counter iv*2^64+i.", "quantifier": "every stream, every key, every iv, every position", "why_tests_cant": "All streams of all lengths.", "anchors": ["goost/kuznyechik/StCTREncrypted.cpp"]}
{"id": "C32", "title": "CTR keystream blocks are pairwise distinct", "statement": "Within one stream (and across streams with different iv under one key, in the first 2^64 blocks), the keystream blocks xored onto the data are pairwise distinct.", "quantifier": "every key, every iv, every pair of positions", "why_tests_cant": "All pairs of positions and all keys.", "anchors": ["goost/kuznyechik/StCTREncrypted.cpp", "goost/kuznyechik/Key.cpp"]}
{"id": "C33", "title": "StMemory enumerates its words as blocks in order", "statement": "Iterating a shared StMemory of 2n words, n>0, yields exactly n blocks, block i being (data[2i], data[2i+1]) as (low, high); last() is true exactly on the last one, next() on it is null, size() is 16.", "quantifier": "every even, non-zero number of words, every position", "why_tests_cant": "All lengths.", "anchors": ["goost/kuznyechik/StMemory.cpp: iter, next_iter, ItMemory"]}
{"id": "C34", "title": "StMemory is safe for every word vector", "statement": "StMemory built on any vector of 64-bit words, including an empty one or one with an odd number of words, can be iterated and authenticated with defined behaviour.", "quantifier": "every vector of words", "why_tests_cant": "All lengths; out-of-bounds reads go unnoticed in tests.", "anchors": ["goost/kuznyechik/StMemory.cpp: next_iter", "goost/kuznyechik/Imit.cpp: value"]}
{"id": "C35", "title": "kuznyechik::Imit equals the GOST R 34.13-2015 MAC", "statement": "On a stream of n>0 whole blocks Imit::value() is the full-width standard MAC (K1 masking, constant 0x87); when the last iterator reports a size other than 16 the last block is masked with K2 instead.", "quantifier": "every stream of every length, every key", "why_tests_cant": "All streams and keys.", "anchors": ["goost/kuznyechik/Imit.cpp: Imit::value, BlkXoredIfHighBit", "goost/kuznyechik/BlkShifted.cpp"]}
{"id": "C36", "title": "Stream iterators stay usable while they are held", "statement": "An iterator obtained from StMemory or StCTREncrypted can be advanced with next() or asked last() for as long as the iterator itself is alive.", "quantifier": "every point at which the owner of the stream releases it", "why_tests_cant": "Quantifies over destruction points.", "anchors": ["goost/kuznyechik/StMemory.cpp: ItMemory::next (weak_ptr)", "goost/kuznyechik/StCTREncrypted.cpp: iter"]}
{"id": "C37", "title": "Iterators signal the end of the stream with a null next()", "statement": "For StMemory and StCTREncrypted streams, next() on the last block returns a null pointer, so that a loop over next() visits each block once and stops.", "quantifier": "every stream, every position", "why_tests_cant": "All streams.", "anchors": ["goost/kuznyechik/StCTREncrypted.cpp: ItCTREncrypted::next", "goost/kuznyechik/StMemory.cpp: ItMemory::next"]}
{"id": "C38", "title": "Hex block literals denote their big-endian value, left-padded with zeros", "statement": "BlkString on a string of at most 16 (magma) or 32 (kuznyechik) hexadecimal digits returns the number written by the digits, split into low and high halves.", "quantifier": "every hex string up to the block width, including the empty string", "why_tests_cant": "All strings.", "anchors": ["goost/magma/BlkString.cpp: value", "goost/kuznyechik/BlkString.cpp: value"]}
{"id": "C39", "title": "Malformed hex block literals are rejected", "statement": "BlkString on a string that is longer than the block or contains a character that is not a hexadecimal digit throws.", "quantifier": "every malformed string", "why_tests_cant": "All malformed strings.", "anchors": ["goost/magma/BlkString.cpp: value", "goost/kuznyechik/BlkString.cpp: value"]}
{"id": "C40", "title": "Kuznyechik key strings must have exactly 64 digits", "statement": "Key built from a string of 64 hex digits uses the first 32 digits as the high and the last 32 as the low half; a string of any other length is rejected.", "quantifier": "every string", "why_tests_cant": "All lengths.", "anchors": ["goost/kuznyechik/KeyDataString.cpp: low, high", "goost/kuznyechik/Key.cpp: Key(const string&)"]}
{"id": "C41", "title": "BlkCached answers consistently over every call history", "statement": "After the first call to value() that returns, every later call returns the same block without consulting the wrapped Block again; a call during which the wrapped Block throws propagates the exception and leaves the cache empty.", "quantifier": "every wrapped Block (also stateful or throwing), every number of calls", "why_tests_cant": "Quantifies over histories and collaborators.", "anchors": ["goost/kuznyechik/BlkCached.cpp: BlockCache::value"]}
{"id": "C42", "title": "Round-key caching is invisible and evaluates each round key at most once", "statement": "Any sequence of encryptions with one kuznyechik::Key gives the results that recomputing the key schedule for every block would give, and over the whole history each of the ten round keys is evaluated successfully at most once.", "quantifier": "every sequence of encrypted blocks, every key data", "why_tests_cant": "Histories of encryptions sharing mutable caches.", "anchors": ["goost/kuznyechik/Key.cpp", "goost/kuznyechik/BlkCached.cpp", "goost/kuznyechik/BlkIterKey.cpp"]}
{"id": "C43", "title": "kuznyechik::BlkShifted is a 128-bit left shift", "statement": "For 1 <= n <= 63, BlkShifted(b,n).value() is b*2^n modulo 2^128.", "quantifier": "every block, every int n; the range where it is defined", "why_tests_cant": "All blocks and all shift counts.", "anchors": ["goost/kuznyechik/BlkShifted.cpp: value"]}
{"id": "C44", "title": "magma::BlkShifted is a 64-bit left shift", "statement": "For 1 <= n <= 31, BlkShifted(b,n).value() has defined behaviour and is b*2^n modulo 2^64.", "quantifier": "every block, every int n", "why_tests_cant": "Undefined shifts that happen to work on the test machine.", "anchors": ["goost/magma/BlkShifted.cpp: value"]}
{"id": "C45", "title": "BlkXored is the exclusive or of all its arguments in any order", "statement": "BlkXored(a,b,c,...) returns the bitwise exclusive or of all argument blocks, independent of their order and grouping.", "quantifier": "every number of argument blocks, every permutation of them", "why_tests_cant": "All arities and permutations.", "anchors": ["goost/magma/BlkXored.h", "goost/magma/BlkXored.cpp", "goost/kuznyechik/BlkXored.h", "goost/kuznyechik/BlkXored.cpp"]}
{"id": "C46", "title": "Cached keys and blocks return right values under every thread schedule", "statement": "When several threads call KeyCachedData::key or BlkCached::value on one shared object whose collaborator is deterministic, every call returns the collaborator's value and the accesses are free of data races.", "quantifier": "every number of threads, every interleaving of their memory accesses", "why_tests_cant": "Schedules cannot be enumerated by tests.", "anchors": ["goost/magma/KeyCachedData.cpp: key", "goost/kuznyechik/BlkCached.cpp: BlockCache::value"]}
{"id": "C47", "title": "Container keys denote the same key as hex strings", "statement": "An ECBSource built from a Container holding the 32 key bytes and the packed R3412 table decrypts what ECBSink with LazyKey(hex string of the same bytes) encrypted; the container's mask takes part in the key.", "quantifier": "every 32-byte key, every mask, every multiple-of-8 data", "why_tests_cant": "All keys and masks.", "anchors": ["goost/magma/ECBSource.cpp: makeKey", "goost/magma/Container.h"]}
{"id": "C48", "title": "Sources and sinks can be stacked", "statement": "A CFBSource over a whole-block source again behaves as a source that returns exactly min(size, remaining) bytes, an ECBSource as a source that returns whole blocks, so any tower of them inverts the mirrored tower of sinks.", "quantifier": "every tower height, every keys, every whole-block data", "why_tests_cant": "All towers.", "anchors": ["goost/magma/CFBSource.cpp", "goost/magma/ECBSource.cpp", "goost/magma/CFBSink.cpp", "goost/magma/ECBSink.cpp", "goost/gost89/CFBSource.cpp", "goost/gost89/CFBSink.cpp"]}
{"id": "C49", "title": "Distinct plaintexts have distinct ciphertexts in every stream mode", "statement": "With one key and register, ECBSink and both CFBSinks never map two different whole-block data to the same ciphertext.", "quantifier": "every pair of multiple-of-8 data, every LazyKey", "why_tests_cant": "All pairs.", "anchors": ["goost/magma/ECBSink.cpp", "goost/magma/CFBSink.cpp", "goost/gost89/CFBSink.cpp"]}
{"id": "C50", "title": "Evaluation depth of lazily built blocks is independent of the message length", "statement": "Computing Imit::value() or reading block i of a CTR stream needs call nesting bounded by a constant, so that long messages do not exhaust the stack.", "quantifier": "every message length, every position", "why_tests_cant": "Stack exhaustion appears only for inputs far larger than any test.", "anchors": ["goost/magma/Imit.cpp: Imit::value", "goost/kuznyechik/Imit.cpp: Imit::value", "goost/kuznyechik/StCTREncrypted.cpp: ItCTREncrypted::next", "goost/kuznyechik/BlkIncremented.cpp"]}
{"id": "C51", "title": "A CFB stream object built with pending bytes continues where it left off", "statement": "A CFBSink or CFBSource constructed with the public constructor that takes pending bytes behaves like a new object to which those bytes were given first: the sink encrypts them before the data written next, the source hands them out before the data read next.", "quantifier": "every pending byte sequence, every data, every LazyKey, every register", "why_tests_cant": "All lengths of the pending bytes; the tests never use these constructors directly.", "anchors": ["goost/magma/CFBSink.cpp", "goost/gost89/CFBSink.cpp", "goost/magma/CFBSource.cpp: read", "goost/gost89/CFBSource.cpp: read"]}
{"id": "C52", "title": "ECB decryption confines corruption to one block and never hides it", "statement": "If one 8-byte ciphertext block is altered, ECBSource returns the same plaintext in every other block, and in that block always a different one.", "quantifier": "every ciphertext, every position, every alteration, every LazyKey", "why_tests_cant": "All pairs of ciphertexts.", "anchors": ["goost/magma/ECBSource.cpp: read", "goost/magma/BlkDecrypted.cpp"]}
{"id": "C53", "title": "CFB decryption resynchronises after lost or inserted blocks", "statement": "Two ciphertexts that end in the same blocks, whatever precedes and whatever the registers, decrypt to the same plaintext from one block (gost89) or two blocks (magma) after the common part begins.", "quantifier": "every pair of whole-block prefixes, every common part, every registers, every LazyKey", "why_tests_cant": "All prefixes.", "anchors": ["goost/magma/CFBSource.cpp: read", "goost/gost89/CFBSource.cpp: read"]}
{"id": "C54", "title": "A wrong register spoils exactly the blocks it enters", "statement": "Decrypting with a wrong gost89 register changes block 0 always and no other; with magma, a wrong ivl changes block 0 always, a wrong ivr block 1 always, and no other block changes.", "quantifier": "every ciphertext of at least 8 resp. 16 bytes, every pair of registers, every LazyKey", "why_tests_cant": "All pairs of registers.", "anchors": ["goost/magma/CFBSource.cpp: read", "goost/gost89/CFBSource.cpp: read"]}
{"id": "C55", "title": "CTR with one key and iv reveals the exclusive or of the plaintexts", "statement": "For two streams encrypted with StCTREncrypted under one key and iv, the exclusive or of the output blocks at a position is the exclusive or of the input blocks at that position.", "quantifier": "every pair of streams, every position, every key, every iv", "why_tests_cant": "All streams and positions.", "anchors": ["goost/kuznyechik/StCTREncrypted.cpp"]}
{"id": "C56", "title": "gost89::DataImit detects every change confined to one block", "statement": "Two data of equal length that differ in exactly one 8-byte block (the last one possibly incomplete) have different DataImit values under the same key.", "quantifier": "every pair of such data, every LazyKey that never fails", "why_tests_cant": "All pairs.", "anchors": ["goost/gost89/DataImit.cpp", "goost/gost89/ImitedBlock.cpp"]}
{"id": "C57", "title": "gost89::DataImit separates data of different length", "statement": "Appending zero bytes to the data changes the value of DataImit.", "quantifier": "every data, every number of zero bytes, every key", "why_tests_cant": "All lengths.", "anchors": ["goost/gost89/DataImit.cpp"]}
{"id": "C58", "title": "Malformed substitution tables are rejected", "statement": "SboxNibble and SboxByte built on tables of the wrong size, or with entries that are not nibbles, throw instead of substituting.", "quantifier": "every table, every word", "why_tests_cant": "All tables.", "anchors": ["goost/magma/SboxNibble.cpp", "goost/magma/SboxByte.cpp", "goost/magma/SboxByte64Tab.cpp"]}
{"id": "C59", "title": "Native keys of the wrong size are rejected", "statement": "A LazyKey over a KeyDataNative that does not hold exactly eight words throws when it is used.", "quantifier": "every word vector, every block", "why_tests_cant": "All sizes.", "anchors": ["goost/magma/KeyDataNative.cpp", "goost/magma/LazyKey.cpp"]}
{"id": "C60", "title": "KeyCachedData is transparent", "statement": "KeyCachedData(kd).key(i) has the same outcome as kd.key(i), for every index and every KeyData.", "quantifier": "every KeyData, every index", "why_tests_cant": "All indices, all ways a word can fail to load.", "anchors": ["goost/magma/KeyCachedData.cpp"]}
{"id": "C61", "title": "A key string of the wrong length is reported before anything is output", "statement": "With a LazyKey over a string that does not have 64 characters, every block operation throws runtime_error \"Wrong key size\"; sinks throw it without writing anything to the underlying sink, CFB sources before reading anything.", "quantifier": "every string of length other than 64, every data, every underlying sink and source", "why_tests_cant": "All strings and data.", "anchors": ["goost/magma/KeyDataString.cpp", "goost/magma/ECBSink.cpp", "goost/magma/CFBSink.cpp", "goost/gost89/CFBSink.cpp", "goost/magma/ECBSource.cpp", "goost/magma/CFBSource.cpp", "goost/gost89/CFBSource.cpp"]}
{"id": "C62", "title": "The exception of a failing underlying source reaches the caller", "statement": "When the underlying source throws after some whole blocks, a CFBSource read that needs no more than those blocks returns their plaintext, and one that needs more throws the same exception; ECBSource and Imit throw the same exception.", "quantifier": "every source, every point of failure, every exception, every read size", "why_tests_cant": "All points of failure.", "anchors": ["goost/magma/CFBSource.cpp: read", "goost/gost89/CFBSource.cpp: read", "goost/magma/ECBSource.cpp: read", "goost/magma/Imit.cpp: Imit::value"]}
{"id": "C63", "title": "Decrypting sources never return more than was asked for", "statement": "CFBSource::read(size) returns at most size bytes, whatever the underlying source does; ECBSource::read(size) too, if the underlying source keeps to this itself.", "quantifier": "every source, every state, every size", "why_tests_cant": "All sources and states.", "anchors": ["goost/magma/CFBSource.cpp: read", "goost/gost89/CFBSource.cpp: read", "goost/magma/ECBSource.cpp: read"]}
{"id": "C64", "title": "Decrypting sources cope with any number of bytes from the underlying read(8)", "statement": "Whatever number of bytes the underlying source returns from read(8), CFBSource and ECBSource have defined behaviour and return decrypted bytes only.", "quantifier": "every answer of the underlying source, every size, every LazyKey", "why_tests_cant": "All answers; the tests use sources that return whole blocks.", "anchors": ["goost/magma/CFBSource.cpp: read", "goost/gost89/CFBSource.cpp: read", "goost/magma/ECBSource.cpp: read"]}
{"id": "C65", "title": "CTR decryption maps flipped ciphertext bits to the same plaintext bits", "statement": "Each block of an StCTREncrypted stream depends on the block at the same position of the wrapped stream only, and flipping bits of that block flips exactly the same bits of the result.", "quantifier": "every stream, every position, every set of bits, every key and iv", "why_tests_cant": "All streams and bits.", "anchors": ["goost/kuznyechik/StCTREncrypted.cpp"]}
{"id": "C66", "title": "A failing Kuznyechik stream is reported, not skipped", "statement": "If a stream throws at some position (from iter, next, last, value or size), Imit::value() throws the same exception, and an StCTREncrypted over it throws at the same position and nowhere before.", "quantifier": "every stream, every position, every exception, every key", "why_tests_cant": "All points of failure.", "anchors": ["goost/kuznyechik/Imit.cpp: Imit::value", "goost/kuznyechik/StCTREncrypted.cpp"]}
{"id": "C67", "title": "One Kuznyechik key serves several threads", "statement": "When several threads encrypt blocks under the same kuznyechik::Key objects, every call returns the ciphertext that one thread alone would get, and the accesses are free of data races.", "quantifier": "every number of threads, keys and blocks, every schedule, every order in which stores become visible", "why_tests_cant": "Schedules cannot be enumerated by tests; ten caches per key are filled in the middle of evaluating each other.", "anchors": ["goost/kuznyechik/Key.cpp", "goost/kuznyechik/BlkCached.cpp: BlockCache::value", "goost/kuznyechik/BlkEncrypted.cpp"]}
{"id": "C68", "title": "One Magma key serves several threads", "statement": "When several threads encrypt and decrypt blocks under one LazyKey over KeyCachedData, every call returns what one thread alone would get, and the accesses are free of data races.", "quantifier": "every number of threads and blocks, every schedule, every order in which stores become visible", "why_tests_cant": "Schedules cannot be enumerated by tests.", "anchors": ["goost/magma/LazyKey.cpp", "goost/magma/KeyCachedData.cpp: key", "goost/magma/BlkEncrypted.cpp", "goost/magma/BlkDecrypted.cpp"]}
{"id": "C69", "title": "LazyKey with any tables and any eight words is GOST 28147-89 with these tables", "statement": "With a key of eight words (or 64 hexadecimal digits) and SboxTwisted over SboxNibble or SboxByte with any eight nibble tables, BlkEncrypted and BlkDecrypted are the encryption and decryption of GOST 28147-89 with those tables and that key.", "quantifier": "every eight tables of 16 nibbles, every eight words, every block", "why_tests_cant": "All tables, keys and blocks.", "anchors": ["goost/magma/SboxTwisted.cpp", "goost/magma/SboxNibble.cpp", "goost/magma/SboxByte.cpp", "goost/magma/KeyDataNative.cpp", "goost/magma/LazyKey.cpp"]}
{"id": "C70", "title": "What the text of a key word or a block literal means", "statement": "A half of a block literal stands for the hexadecimal number at its beginning: after optional white space, sign and 0x prefix, the longest run of digits; a minus sign negates modulo the width of the half. The literal is rejected with invalid_argument if a half begins with no number, and only then. A word of a Magma key string is read in the same way, is 0 if its group begins with no number, and undefined if the group is blank.", "quantifier": "every text of the right length, every half and every word", "why_tests_cant": "All texts, well-formed or not.", "anchors": ["goost/magma/BlkString.cpp", "goost/kuznyechik/BlkString.cpp", "goost/magma/KeyDataString.cpp: key"]}
{"id": "C71", "title": "The work for a message is proportional to its length", "statement": "The number of value() calls made while a message of n blocks is encrypted in CTR mode or authenticated is bounded by c * n + c0, with constants that do not depend on the message or on what has been cached.", "quantifier": "every message, every state of the caches, every stream, every stack size", "why_tests_cant": "Asymptotic behaviour; tests use a few blocks.", "anchors": ["goost/kuznyechik/StCTREncrypted.cpp: ItCTREncrypted::next", "goost/kuznyechik/BlkIncremented.cpp", "goost/kuznyechik/Imit.cpp: value", "goost/magma/Imit.cpp: value"]}
{"id": "C72", "title": "Objects live exactly as long as they can be reached", "statement": "However a program builds, copies and drops the objects of the library, no shared_ptr ever points to a destroyed object, and an object exists if and only if it can be reached from a variable through members; nothing is left when the last variable is gone.", "quantifier": "every program over constructors, copies, member accesses, weak_ptr::lock and ends of variables", "why_tests_cant": "All programs; leaks and dangling pointers depend on the order of destruction.", "anchors": ["goost/kuznyechik/StMemory.cpp: ItMemory::next", "goost/kuznyechik/StCTREncrypted.cpp", "goost/kuznyechik/BlkCached.cpp", "goost/magma/LazyKey.h"]}
{"id": "C73", "title": "Destroying a stream or a MAC takes a bounded stack", "statement": "The number of destructors that nest when an iterator, a stream or the blocks built by Imit::value are destroyed does not depend on the length of the message.", "quantifier": "every message length and every stack size", "why_tests_cant": "Tests use messages of a few blocks.", "anchors": ["goost/kuznyechik/StCTREncrypted.cpp: ItCTREncrypted::next", "goost/kuznyechik/Imit.cpp: value", "goost/magma/Imit.cpp: value"]}
{"id": "C74", "title": "Table accesses do not depend on the key", "statement": "Which elements of the substitution tables are read while one block is encrypted or decrypted does not depend on the key, so an observer of the cache learns nothing about it.", "quantifier": "every key, every block, every table of the table classes", "why_tests_cant": "Tests see results, not addresses.", "anchors": ["goost/magma/SboxNibble.cpp", "goost/magma/SboxByte.cpp", "goost/magma/SboxR3412.cpp", "goost/magma/LazyKey.cpp: transform", "goost/kuznyechik/BlkS.cpp: value", "goost/kuznyechik/Key.cpp: encrypt"]}
{"id": "C75", "title": "Branches do not depend on the key", "statement": "Which way the conditional branches go while a block is encrypted or a MAC is finished does not depend on the key or the block.", "quantifier": "every key and every block", "why_tests_cant": "Tests see results, not the control flow.", "anchors": ["goost/kuznyechik/BlkR.cpp: gmul", "goost/magma/Imit.cpp", "goost/magma/BlkEncrypted.cpp", "goost/magma/BlkDecrypted.cpp"]}
{"id": "C76", "title": "The tests' matches pass exactly on the expected output", "statement": "HexMatch and SourceMatch let a test pass if and only if the output is the expected text, ignoring layout and the case of digits.", "quantifier": "every expected text and every output", "why_tests_cant": "The matches are what the tests judge by; nothing tests them.", "anchors": ["test/HexMatch.cpp: match", "test/SourceMatch.cpp: match", "test/magma/CFBSinkTest.cpp"]}
{"id": "C77", "title": "The tests' texts show exactly what was given and received", "statement": "Hex64Source, SourceText, TestSinkText, ReprBlock and ReprKeyData convert text to bytes and bytes, blocks and keys to text without loss: what a test prints for a sink or a source determines the bytes it sent or returned.", "quantifier": "every text, every source that keeps giving, every key, block and register", "why_tests_cant": "The helpers have one test with one text.", "anchors": ["test/Hex64Source.cpp: read", "test/SourceText.cpp: asString", "test/TestSinkText.cpp: asString", "test/TestSink.cpp: asHexString", "test/magma/ReprBlock.cpp", "test/magma/ReprKeyData.cpp", "test/kuznyechik/ReprBlock.cpp"]}
{"id": "C78", "title": "HexContainer accepts 64 hexadecimal digits and nothing else", "statement": "HexContainer of 64 digits holds the key these digits denote, and every other text is rejected with an exception.", "quantifier": "every text", "why_tests_cant": "One well-formed text is used in the tests.", "anchors": ["test/magma/HexContainer.cpp: key", "test/magma/HexContainer.cpp: sbox", "goost/magma/ECBSource.cpp: makeKey"]}
{"id": "C79", "title": "The size of the last block takes part in the MAC", "statement": "Two messages whose blocks have the same values but whose last blocks have different sizes have different MACs.", "quantifier": "every key, every message, every pair of sizes of the last block", "why_tests_cant": "The tests compute MACs of whole blocks only.", "anchors": ["goost/kuznyechik/Imit.cpp: value", "goost/magma/Imit.cpp: BlkImitFinalKey"]}
{"id": "C80", "title": "A write that failed can be repeated", "statement": "If the underlying sink throws during a write and the caller writes the same data again to the same object, the underlying sink ends up with the ciphertext of the data.", "quantifier": "every data, every pending data, every point of failure", "why_tests_cant": "All crash points, and the tests have no failing sink.", "anchors": ["goost/magma/CFBSink.cpp: write", "goost/gost89/CFBSink.cpp: write", "goost/magma/ECBSink.cpp: write"]}
{"id": "C81", "title": "What two messages under one key and iv give away", "statement": "Two messages encrypted in CFB mode with one key and one iv: the ciphertexts agree on the first n blocks exactly if the messages do, and from the first different block on, for as many blocks as the register has, the exclusive or of the ciphertexts is that of the messages.", "quantifier": "every key, iv, pair of messages of whole blocks, every chunking", "why_tests_cant": "All pairs of messages; no test encrypts two messages.", "anchors": ["goost/magma/CFBSink.cpp: write", "goost/gost89/CFBSink.cpp: write"]}
{"id": "C82", "title": "MACs of GOST 28147-89 extend", "statement": "Let m and b || r be messages of whole blocks (at least two), b the first block of the second, t the MAC of m. Then m || (t xor b) || r has the MAC of b || r: two MACs give a third without the key.", "quantifier": "every key, every pair of messages", "why_tests_cant": "All keys and messages; the tests check one MAC of one message.", "anchors": ["goost/gost89/DataImit.cpp: value"]}
{"id": "C83", "title": "Keys whose words read the same backwards encrypt and decrypt alike", "statement": "If word i of the key equals word 7 - i for all i, block encryption and decryption are the same function, so encrypting twice is the identity.", "quantifier": "every key, every substitution", "why_tests_cant": "2^256 keys; the tests use two.", "anchors": ["goost/magma/BlkEncrypted.cpp: value", "goost/magma/BlkDecrypted.cpp: value", "goost/magma/LazyKey.cpp: transform"]}
{"id": "C84", "title": "Top bits of key words and blocks cancel", "statement": "If two keys differ exactly in the top bit of every word, then encrypting (or decrypting) blocks that differ exactly in the top bits of both halves gives results that differ exactly there; the same of the GOST 28147-89 MAC and the first block of the message.", "quantifier": "every pair of keys, every block", "why_tests_cant": "Pairs of keys out of 2^256.", "anchors": ["goost/magma/LazyKey.cpp: transform", "goost/magma/BlkEncrypted.cpp: value", "goost/gost89/DataImit.cpp: value"]}
{"id": "C85", "title": "The MAC of a decrypting source is the MAC of the data", "statement": "Imit over a source that decrypts, in any number of layers, what the mirrored sinks have encrypted gives the same as over a source of the data.", "quantifier": "every tower of ECB and CFB layers, every data of whole blocks, every source", "why_tests_cant": "All compositions; the tests never combine Imit with a decrypting source.", "anchors": ["goost/magma/Imit.cpp: value", "goost/magma/CFBSource.cpp: read", "goost/magma/ECBSource.cpp: read", "goost/gost89/CFBSource.cpp: read"]}
{"id": "C86", "title": "The bytes do not depend on the machine", "statement": "The ciphertexts, plaintexts and MACs of given bytes are the same whatever the byte order of the machine.", "quantifier": "every machine, key, iv and data", "why_tests_cant": "Other machines; the tests run on one.", "anchors": ["goost/magma/ECBSink.cpp: write", "goost/magma/CFBSink.cpp: write", "goost/gost89/CFBSink.cpp: write", "goost/magma/Imit.cpp: value", "goost/gost89/DataImit.cpp: value", "goost/kuznyechik/BlkR.cpp: value"]}
{"id": "C87", "title": "CFB is undone on the machine it was done on", "statement": "On a machine of either byte order, strict about alignment or not, a CFB source returns what the CFB sink was given, whatever the chunks and read sizes.", "quantifier": "every machine, key, iv, data of whole blocks, chunking, reading", "why_tests_cant": "Other machines; all data.", "anchors": ["goost/magma/CFBSink.cpp: write", "goost/magma/CFBSource.cpp: read", "goost/gost89/CFBSink.cpp: write", "goost/gost89/CFBSource.cpp: read"]}
{"id": "C88", "title": "ECB is undone on the machine it was done on", "statement": "On a machine of either byte order, ECBSource returns what ECBSink was given.", "quantifier": "every machine, key, data of whole blocks", "why_tests_cant": "Other machines; the tests of ECBSink and ECBSource run on one.", "anchors": ["goost/magma/ECBSink.cpp: write", "goost/magma/ECBSource.cpp: read", "goost/magma/BlkRaw.cpp: BlkRaw"]}
{"id": "C89", "title": "Accesses to wider types are aligned", "statement": "No pointer cast to uint32_t or uint64_t is used at an address unfit for that type, so machines that insist on alignment do the same as others.", "quantifier": "every machine, key, data, position of the stack", "why_tests_cant": "Machines that insist on alignment; x86 does not notice.", "anchors": ["goost/kuznyechik/BlkR.cpp: value", "goost/kuznyechik/BlkRaw.cpp: BlkRaw", "goost/magma/ECBSink.cpp: write", "goost/magma/BlkRaw.cpp: BlkRaw", "goost/gost89/DataImit.cpp: value"]}
{"id": "C90", "title": "Keys and substitutions are the same on every machine", "statement": "The key made from a container and the substitution of Kuznyechik do not depend on the byte order.", "quantifier": "every machine, container of bytes, block", "why_tests_cant": "Other machines; the tests use one container on one machine.", "anchors": ["goost/magma/ECBSource.cpp: makeKey", "goost/kuznyechik/BlkS.cpp: value"]}
{"id": "C91", "title": "Whatever has been stored when writing stops can be read back", "statement": "Write data in any pieces through any stack of ECBSink and CFBSink over any sink. At whatever point this ends - the underlying sink throws, the length is wrong for ECB, or the caller simply stops without finalize - the underlying sink has been given the encryption of the first n blocks of the data, one block per write, and after successful writes n is the number of complete blocks. If any first k of these writes reached the medium, the mirrored stack of sources gives back exactly the first k blocks of the data and then the end.", "quantifier": "every stack, every data, every way of splitting it, every behaviour of the underlying sink, every point of failure, every read size (blocks if an ECBSource is outermost)", "why_tests_cant": "The tests neither stack sinks nor let an underlying sink fail; there are unboundedly many points of failure.", "anchors": ["goost/magma/ECBSink.cpp: write", "goost/magma/CFBSink.cpp: write", "goost/gost89/CFBSink.cpp: write", "goost/magma/ECBSource.cpp: read", "goost/magma/CFBSource.cpp: read", "goost/gost89/CFBSource.cpp: read"]}
{"id": "C92", "title": "The calls to user-supplied keys, tables, sinks and sources, and their order", "statement": "Let KeyData, Sbox, Key, Sink and Source be any implementations, with state and side effects. Encrypting one block calls KeyData::key and then Sbox::transform once per round, with indices 0..7, 0..7, 0..7, 7..0 (decrypting: 0..7, then 7..0 three times). A write of a sink makes these calls and then one write of 8 bytes for each block that becomes complete, and nothing else; finalize makes them once and writes the rest, or does nothing if there is no rest. CFBSource makes them before each read of 8 bytes, ECBSource after it and not at the end of the data. If a call throws, nothing further is called.", "quantifier": "every key, sink and source with effects, every data and state of the objects, every outcome", "why_tests_cant": "The tests use keys without effects; they cannot see how often or in which order the key is asked.", "anchors": ["goost/magma/LazyKey.cpp: transform", "goost/magma/BlkEncrypted.cpp: BlkEncrypted", "goost/magma/BlkDecrypted.cpp: BlkDecrypted", "goost/magma/EncryptionBase.cpp: transform", "goost/magma/ECBSink.cpp: write", "goost/magma/CFBSink.cpp: write, finalize", "goost/gost89/CFBSink.cpp: write, finalize", "goost/magma/ECBSource.cpp: read", "goost/magma/CFBSource.cpp: read", "goost/gost89/CFBSource.cpp: read"]}
{"id": "C93", "title": "A key that sometimes throws never spoils the data", "statement": "Let a key answer correctly whenever it answers, and throw at any other time. A write of a sink then does exactly what it does with a reliable key, or throws after giving the underlying sink exactly what a successful write of a first part of the data gives it. finalize does what it does with a reliable key or throws without writing. A read returns exactly what it returns with a reliable key, or throws after some successful reads of the source.", "quantifier": "every pattern of failures of the key, every sink, source, data and state of the objects", "why_tests_cant": "There are unboundedly many patterns of failure, and no test has a key that fails.", "anchors": ["goost/magma/LazyKey.cpp: transform", "goost/magma/BlkEncrypted.cpp: BlkEncrypted", "goost/magma/BlkDecrypted.cpp: BlkDecrypted", "goost/magma/EncryptionBase.cpp: transform", "goost/magma/ECBSink.cpp: write", "goost/magma/CFBSink.cpp: write, finalize", "goost/gost89/CFBSink.cpp: write, finalize", "goost/magma/ECBSource.cpp: read", "goost/magma/CFBSource.cpp: read", "goost/gost89/CFBSource.cpp: read"]}
{"id": "C94", "title": "The language's rules on access to objects are kept", "statement": "No function of the library accesses an object through a type it does not have (other than char, unsigned char or std::byte), and none calls a member function of an object whose base classes are not constructed, so that the outcome does not depend on whether the compiler makes use of these rules.", "quantifier": "every use of the block classes, sinks, sources, MACs and constructors", "why_tests_cant": "A test runs what one compiler made of the code at one time; the rules allow another compiler, or the same one with other flags, to make anything of it.", "anchors": ["goost/magma/ECBSink.cpp: write", "goost/magma/ECBSource.cpp: ECBSource(source, container), read", "goost/magma/BlkRaw.cpp: BlkRaw(const void *), BlkRaw(const vector<uint8_t> &)", "goost/gost89/DataImit.cpp: value", "goost/kuznyechik/BlkRaw.cpp: BlkRaw(const void *)", "goost/kuznyechik/BlkR.cpp: value", "goost/kuznyechik/BlkS.cpp: value", "goost/magma/CFBSink.cpp: write", "goost/magma/CFBSource.cpp: read", "goost/magma/Imit.cpp: value"]}
{"id": "C95", "title": "Messages with one MAC keep it when continued, and an encrypted block yields them", "statement": "Two messages of whole blocks have one MAC under a key exactly if they have one MAC after the same bytes are put behind both; and the encryption of a single block q to c under the key of the MAC gives, for every message p||t with first block p, the message q||(c xor p)||t with the same MAC.", "quantifier": "every key that computes a block cipher, every two messages of whole blocks (for GOST 28147-89 of two blocks or more), every continuation, every source or stream that delivers them", "why_tests_cant": "A test compares MACs of chosen messages; that no collision is created or destroyed by any continuation, and that every message has such a partner, are statements about all messages.", "anchors": ["goost/magma/Imit.cpp: value", "goost/kuznyechik/Imit.cpp: value", "goost/gost89/DataImit.cpp: value", "goost/magma/ECBSink.cpp: write", "goost/kuznyechik/BlkEncrypted.cpp: value"]}
{"id": "C96", "title": "2^32 blocks are encrypted as by half of the rounds", "statement": "Under every key exactly 2^32 of the 2^64 blocks are taken by the encryption (32 rounds) to the same block as by the transformation of the MAC of GOST 28147-89 (16 rounds).", "quantifier": "every key and substitution for which the round function is defined", "why_tests_cant": "One in 2^32 blocks is concerned, and the number is a statement about all 2^64 blocks.", "anchors": ["goost/magma/BlkEncrypted.cpp: value", "goost/gost89/ImitedBlock.cpp: value", "goost/magma/BlkForwarded.cpp: value", "goost/magma/BlkBackwarded.cpp: value"]}
{"id": "C97", "title": "Blocks that encryption leaves alone", "statement": "Under a key whose words read the same backwards exactly 2^32 blocks are their own encryption.", "quantifier": "every such key and every substitution for which the round function is defined, in particular every such key of 64 hexadecimal digits", "why_tests_cant": "The keys are 2^128 of 2^256, the blocks one in 2^32.", "anchors": ["goost/magma/BlkEncrypted.cpp: value", "goost/magma/LazyKey.cpp: transform"]}
{"id": "C98", "title": "Running out of memory does not spoil the data", "statement": "If taking memory fails anywhere in a write, the write throws and the sink below has received exactly what a successful write of a beginning of the data gives it; a finalize that fails has given nothing; a read that fails has only read whole blocks of the source, and never returns wrong bytes. If no request fails the outcome is the usual one.", "quantifier": "every pattern of failing requests for memory, together with every unreliable key, every sink, source, data, state and size", "why_tests_cant": "Each push_back, copy and make_shared may fail independently; tests run with memory enough.", "anchors": ["goost/magma/ECBSink.cpp: write", "goost/magma/CFBSink.cpp: write, finalize", "goost/gost89/CFBSink.cpp: write, finalize", "goost/magma/ECBSource.cpp: read", "goost/magma/CFBSource.cpp: read", "goost/gost89/CFBSource.cpp: read"]}
{"id": "C99", "title": "The project's own test program ends with 0", "statement": "goost_test runs 74 tests and ends with 0, and so does the example of the package. By the rules of the language 73 of the tests and the example pass; the test of magma::Imit is undefined, and so is the program.", "quantifier": "every sequence of numbers from the two random generators, every content of the memory behind vectors, both readings of undefined behaviour", "why_tests_cant": "A run shows one sequence of random numbers on one machine, and cannot show that its outcome is not defined by the language.", "anchors": ["test/goost_test.cpp: main", "test/magma/*Test.cpp", "test/gost89/*Test.cpp", "test/kuznyechik/*Test.cpp", "test_package/example.cpp: main"]}
{"id": "C100", "title": "What the tests leave open", "statement": "Claim: a library that passes the test program is right. It fails: every library, whatever it computes, passes when it is changed at 7 blocks to encrypt, 1 to decrypt, 5 for EncryptionBase, 4 for Kuznyechik, one message for the sinks and one for each of two MACs, in reads of the largest size and in a finalize with nothing left over; DataImit is not tested at all.", "quantifier": "every library (functions for the blocks, streams and MACs named)", "why_tests_cant": "It is about the tests themselves.", "anchors": ["test/goost_test.cpp: main", "test/magma/Test.cpp", "test/gost89/Test.cpp", "test/kuznyechik/Test.cpp"]}
{"id": "C101", "title": "Caches asked by the object they wrap", "statement": "Claim: KeyCachedData and BlkCached never give two answers to the same question, even when the wrapped object asks them back while it is being asked. It fails: the answers given to the wrapped object are overwritten by the load going on outside; if that load fails the key is mixed from two loads; an object that always asks back exhausts the stack. It holds from the first call from outside that returned, and for wrapped objects that never say anything but the same.", "quantifier": "every wrapped object, with any state and any calls back; every depth of the stack; every history of calls", "why_tests_cant": "The wrapped objects are the user's; a test has a few of them, none of which calls back.", "anchors": ["goost/magma/KeyCachedData.cpp: KeyCachedData::key", "goost/kuznyechik/BlkCached.cpp: BlockCache::value, BlkCached::value"]}
{"id": "C102", "title": "Running out of memory does not spoil a Kuznyechik key", "statement": "Whenever memory runs out while blocks are encrypted or MACs computed with keys that are used again and again, a call either returns what it returns with memory enough or passes on what the allocation threw; and once there is memory again all calls return the right values, whatever calls failed before.", "quantifier": "every behaviour of the allocator, every sequence of calls over every number of keys, every block and stream, every depth of the stack that is enough", "why_tests_cant": "Allocations do not fail in tests, and there are hundreds of them in one encryption at which they could.", "anchors": ["goost/kuznyechik/BlkCached.cpp: BlockCache::value", "goost/kuznyechik/BlkL.cpp: BlkL::transform", "goost/kuznyechik/BlkIterKey.cpp: BlkIterKey::generate", "goost/kuznyechik/Key.cpp: Key::encrypt", "goost/kuznyechik/Imit.cpp: Imit::value"]}
{"id": "C103", "title": "Two neighbouring Kuznyechik round keys are as good as the key", "statement": "Any two blocks are the round keys number 2j+1 and 2j+2 of exactly one key, for each j from 0 to 4; so whoever sees one of the five pairs has the key, and different keys differ in every pair.", "quantifier": "every pair of 128-bit blocks, each of the five pairs, every two keys", "why_tests_cant": "The tests compare the ten round keys of one key; that no two of the 2^256 keys share a pair cannot be tried out.", "anchors": ["goost/kuznyechik/Key.cpp: Key::Key", "goost/kuznyechik/BlkIterKey.cpp: BlkIterKey::generate"]}
{"id": "C104", "title": "Layers of counter mode commute", "statement": "Two StCTREncrypted layers with keys and initial values of their own give the same blocks in either order; the lower can be taken off through the upper; last() and size() pass through both; the MAC of a deciphered ciphertext is the MAC of the data.", "quantifier": "every stream, every two keys and initial values, every position, every number of blocks", "why_tests_cant": "The tests have one layer over one stream with one key.", "anchors": ["goost/kuznyechik/StCTREncrypted.cpp: ItCTREncrypted::value, next, last, size", "goost/kuznyechik/Imit.cpp: Imit::value"]}
{"id": "C105", "title": "Counter mode does not get over a lost block or a wrong initial value", "statement": "A ciphertext block deciphered at another position than its own, or with another initial value than its own, is never the block it was made from. (CFB gets over both, see C53 and C54.)", "quantifier": "every key, every two streams, every two positions, every two initial values", "why_tests_cant": "A test can see one block come out wrong; that none ever comes out right by chance needs the cipher to be a permutation.", "anchors": ["goost/kuznyechik/StCTREncrypted.cpp: ItCTREncrypted::value, next, StCTREncrypted::iter", "goost/kuznyechik/BlkIncremented.cpp: value"]}
{"id": "C106", "title": "A key string means the same under every locale", "statement": "What KeyDataString and the two BlkString read from a text does not depend on the locale the program has set. (True for texts of hexadecimal digits, and for texts without the punctuation of the locale; otherwise false: where digits are grouped, a word is read over its separators.)", "quantifier": "every locale, every text, every index", "why_tests_cant": "The tests never set a locale.", "anchors": ["goost/magma/KeyDataString.cpp: KeyDataString::key", "goost/magma/BlkString.cpp: BlkString::value", "goost/kuznyechik/BlkString.cpp: BlkString::value"]}
{"id": "C107", "title": "A MAC that is returned is right, though memory runs out or the key fails", "statement": "If memory runs out or the key throws anywhere in Imit::value or DataImit::value, the call throws; it never returns a wrong or partial MAC. Imit has then read only whole blocks it would have read anyway, DataImit has changed nothing.", "quantifier": "every key, every source or data, every moment at which an allocation or the key fails", "why_tests_cant": "The tests never run out of memory and their keys never fail.", "anchors": ["goost/magma/Imit.cpp: Imit::value", "goost/magma/Imit.cpp: BlkImitShifted::value", "goost/magma/Imit.cpp: BlkImitFinalKey::value", "goost/gost89/DataImit.cpp: DataImit::value", "goost/gost89/ImitedBlock.cpp: ImitedBlock::value"]}
{"id": "C108", "title": "Magma's CFB is two CFB streams of GOST 28147-89 taking turns", "statement": "magma::CFBSink with the initial value (l, r) writes at even positions the blocks gost89::CFBSink with l writes for the even blocks of the data, and at odd positions those of gost89::CFBSink with r for the odd blocks; the sources likewise. So each half of a stream can be read without the other.", "quantifier": "every key, initial value and sequence of whole blocks", "why_tests_cant": "The tests look at each class alone, on one message.", "anchors": ["goost/magma/CFBSink.cpp: CFBSink::write", "goost/gost89/CFBSink.cpp: CFBSink::write", "goost/magma/CFBSource.cpp: CFBSource::read", "goost/gost89/CFBSource.cpp: CFBSource::read"]}
{"id": "C109", "title": "ECB shows equal blocks and lets blocks be rearranged", "statement": "Two blocks written by ECBSink are equal exactly if the blocks of the data are; and ECBSource reads any ciphertext put together of such blocks, in any order and number, as the data put together the same way, without an error.", "quantifier": "every key, every message, every choice of blocks", "why_tests_cant": "It is about all pairs of blocks and all rearrangements.", "anchors": ["goost/magma/ECBSink.cpp: ECBSink::write", "goost/magma/ECBSource.cpp: ECBSource::read"]}
{"id": "C110", "title": "What an observer of the machine learns of a message", "statement": "Whoever sees the branches and the table accesses while a message goes through a sink or gost89::DataImit learns nothing of the message but its length.", "quantifier": "every pair of keys, initial values and messages of the same length, every underlying sink that takes what it is given", "why_tests_cant": "Tests see results, not branches and accesses; the claim compares all pairs of runs.", "anchors": ["goost/magma/ECBSink.cpp: ECBSink::write", "goost/magma/EncryptionBase.cpp", "goost/magma/CFBSink.cpp", "goost/gost89/CFBSink.cpp", "goost/gost89/DataImit.cpp: DataImit::value"]}
{"id": "C111", "title": "Reading leaks amounts only through branches and the order of tables", "statement": "While a message is read through ECBSource or a CFBSource, the outcome of every branch, the sequence of tables read and the way the call ends depend only on the size asked for, on the number of pending bytes and on the amounts the underlying source delivers: not on key, initial value, ciphertext or plaintext.", "quantifier": "every pair of keys, initial values and underlying sources that deliver the same amounts (or fail alike), every size; both on x86 and by the standard", "why_tests_cant": "Tests see results, not branches and accesses; the claim compares all pairs of runs.", "anchors": ["goost/magma/ECBSource.cpp: ECBSource::read", "goost/magma/CFBSource.cpp: CFBSource::read", "goost/gost89/CFBSource.cpp: CFBSource::read"]}
