# Formal model of DronMDF/goost in Rocq (Coq 8.16.1)

## 1. How the code is modelled

* Unsigned machine words and bytes are `N`; every place where C++ wraps
  (`+`, `<<`, conversions to a narrower type) has an explicit `mod 2^k`.
  `int` arguments are `Z`.
* Every C++ call returns an *outcome*: `Ok v`, `Throw e`, `Undef u`
  (undefined behaviour, with its cause: out-of-bounds access, null
  dereference, over-wide shift, read of an uninitialised variable, buffer
  overflow) or `OutOfFuel` (the model's loop budget ran out; theorems exclude it).
* Two readings of undefined behaviour, selected by a `mode` parameter:
  * `ISO`: undefined behaviour is always the distinct outcome `Undef`;
  * `X86 garbage`: what the unoptimised-across-files x86-64/glibc build does for
    the few constructs the code relies on: shift counts are masked by the
    processor, bytes written behind the end of a short heap vector (at most 7
    bytes, inside the allocator's minimum chunk) are lost, bytes read from there
    are the arbitrary values `garbage`. Null dereferences, stack overruns and
    uninitialised reads are `Undef` in this reading too.
  `X86` exists only to say what a user actually observes where `ISO` says
  "undefined"; the repository's own `ImitTest` vector agrees with it.
* `Block` objects are denoted by the outcome of their `value()`
  (`res (N*N)`, a lazily combined outcome). The object graph with real mutable
  caches, call counts and nesting depth is a second, operational model
  (`DeepModel.v`, `CacheModel.v`) related to the first by theorems.
* `Source` and `Sink` objects are interfaces: a state type, a `read`/`write`
  function, and a *world* `W` which user-supplied inner objects may change
  (files, logs). All theorems quantify over the inner object.
* `shared_ptr`/`unique_ptr` ownership is only modelled where it is observable:
  null pointers, failed `dynamic_pointer_cast`, expired `weak_ptr`,
  `shared_from_this` on an object that is not shared.

## 2. Reading guide

`properties.jsonl` states the properties in English, `MANIFEST.json` maps each to its
theorems. The theorems are in `Prop*.v`; each such file holds only statements, proofs of
one or a few lines that apply a lemma, an `Example` that meets the hypotheses on concrete
non-trivial data, and `Print Assumptions` for every theorem. `Spec*.v` hold the
vocabulary of the statements. `*Model.v`, `Streams.v`, `Text.v` and `DeepMagma.v` are the
model; every definition cites the lines of /repo it stands for. Everything else is proof.

Suffixes: `_partial` is the part of a claim that holds where the whole does not (or is not
proved), with the full claim in the comment above it; `_refuted` shows that the claim is
false of the code. A property with a refutation has status "partial" in the manifest, with
a note that begins with REFUTED.

## 3. Plan per property

| id | model | proof |
|----|-------|-------|
| C01 | MagmaModel block functions, arbitrary key function | each round is an involution; 32-step algebra |
| C02 | + SpecMagma (Feistel fold on 64-bit numbers, from the standard) | code rounds = fold, tables = standard tables |
| C03 | EncryptionBase model | symbolic equality of both round sequences |
| C04 | Sbox models | bit-level lemmas; finite sweep per nibble lifted to words |
| C05 | SboxByte64Tab / SboxNibble | nibble-wise equality for arbitrary tables |
| C06, C07 | istringstream hex extraction (libstdc++ semantics) | induction over digits; refutation witnesses for C07 |
| C08, C41 | CacheModel: stateful collaborator, call histories | invariant over the history |
| C09, C13, C19 | Streams: write loops over arbitrary inner sinks with world | induction over data; loops compose over `++` |
| C10, C14-C17 | Streams + SpecModes | refinement of read/write loops to list-level mode specification |
| C11, C12 | ECBSource model | refutation by witness, positive part for whole blocks |
| C18 | list-level CFB spec | pointwise characterisation of decryption |
| C20 | Key = LazyKey or user-defined | refutation for CFB/ECBSource, proof for ECBSink |
| C21-C24 | Imit model in both modes, SpecModes CMAC | induction on blocks; refutations |
| C25 | DataImit model | padding lemma + fold |
| C26-C29 | KuzModel, SpecKuz (128-bit numbers, GF(2^8) by carry-less product) | byte/number conversion lemmas, finite sweeps lifted |
| C30-C32 | BlkIncremented, ItCTREncrypted | arithmetic, permutation |
| C33-C37 | StMemory/iterators with lifetime | induction over position; refutations |
| C38-C40 | stoull model | induction over digits; refutations |
| C42 | DeepModel with ten caches | refinement: cached evaluation = pure evaluation, counter invariant |
| C43-C45 | block combinators | bit lemmas |
| C46 | ConcModel: small-step interleaving of n threads | inductive invariant; reachable racy state |
| C47 | makeKey model | corollary of C05, C06, C10 |
| C48, C49 | corollaries of the stream theorems | |
| C50 | DeepModel: nesting depth | depth grows linearly: refutation |
| C51 | the constructors with pending bytes | write loop from a non-empty buffer; refutation from 8 bytes on |
| C52 | ECBSource, `differ_in_block` | blockwise map, injectivity of decryption |
| C53, C54 | list-level CFB spec | decryption forgets the register after its length |
| C55, C65 | ItCTREncrypted | blockwise characterisation (C31) |
| C56, C57 | DataImit | injectivity of the 16-round step; padding lemma |
| C58 | Sbox models with tables of any size and content | case analysis of every table access |
| C59, C60, C61 | KeyDataNative, KeyCachedData, KeyDataString inside LazyKey | outcome of the first round; loading order |
| C62, C63 | sources over an inner source that throws / any inner source | induction over the read loop |
| C64 | sources over an inner source with answers of any size | first iteration of the read loop |
| C66 | iterators whose methods throw | induction over the position |
| C67, C68 | NetModel: whole evaluations as programs over numbered caches | the invariant of C46 composed along the evaluation; one thread alone; stores out of order |
| C69 | Sbox models, KeyDataNative | as C47, for any key and tables |
| C70 | Text.v, BlkString, KString, KeyDataString | the grammar of SpecNumber.v against the scanners, both directions |
| C71 | WorkModel: the evaluations of DeepModel and DeepMagma, counting | amortised over the caches that get filled; the first chain of calls from below; magma::Imit exactly, object by object |
| C72, C73 | LifeModel: reference counts, destruction, programs | counts equal references and members are older, during destruction too; chains of objects with one owner |
| C74, C75 | LeakModel: the block functions of MagmaModel and KuzModel, also listing table accesses and branches | accesses of a step determine its key word given the earlier ones; S and the bits of gmul are injective |
| C76-C78 | HarnessModel: the classes of /repo/test | the loops over text keep the digits not yet used; printing is positional notation |
| C79 | KuzModel.KImit, Streams.magma_Imit | none beyond C21, C35; the stream or source is a parameter |
| C80 | Streams: ECBSink, CFBSink | the underlying sink is a parameter; its failures and what it does with the bytes are its own affair |
| C81 | Streams: CFBSink of both namespaces | as for C14 |
| C82, C84 (MAC) | Streams/MagmaModel: DataImit, ImitedBlock | as for C25 |
| C83, C84 | MagmaModel: LazyKey, BlkEncrypted, BlkDecrypted | none; any substitution, also one that fails |
| C85 | Streams: magma_Imit over ECBSource, CFBSource | as for C21 and C48 |
| C86, C87, C88 | PortModel: streams, MACs, BlkL with the machine as a parameter | as for the model without it; vector storage at a multiple of 8 if the machine insists |
| C89 | PortModel: access | the array of BlkR does not begin at 7 modulo 8 (for the refutation) |
| C90 | PortModel: makeKey_on, KS_on | the container holds bytes |
| C91 | Streams: all sinks and sources, stacked | the underlying sink is a parameter; a write to it is kept whole or not at all |
| C92 | EffModel: Magma blocks, EncryptionBase, all sinks and sources with keys that act on the world | records of the calls; equal to Streams.v for keys without effects |
| C93 | EffModel, as C92 | the failing key is any that answers right or throws |
| C94 | AliasModel: the functions that look at storage through another type; ECBSource from a container | objects of types byte, uint32_t and uint64_t; a flag says whether the rules are used |
| C95 | the three MACs, ECBSink, Kuznyechik's BlkEncrypted | the chaining value is an injective function of itself: equal ends come from equal values before the common part |
| C96 | BlkEncrypted, ImitedBlock | the last 16 rounds undo each other exactly if the halves after 24 rounds are equal; going back from equal halves lists the blocks |
| C97 | BlkEncrypted with a palindromic key | the second half of the rounds undoes the first exactly if the halves in the middle are equal |
| C98 | the stream classes with an action before every point that takes memory | as for C93, with one more step that may throw at each point; what was gone through of an ECB write is a whole number of blocks |
| C99 | goost_test.cpp with all its tests, example.cpp | every test is computed; the cached objects with random contents by cases of their first call |
| C100 | the same with the functions under test as parameters | a library with the right values at the blocks and data the tests use, computed test by test |
| C101 | KeyCachedData::key, BlockCache::value over wrapped objects that call back | wrapped objects as trees of actions and calls, induction on the depth of the stack and on the tree; the objects for the refutations are computed |
| C102 | DeepModel.v with an action that may throw where objects are made | the caches only ever hold what KuzModel.v computes (`consistent`), by induction on the depth; exceptions of the allocator are the only other outcome |
| C103 | KuzModel.v | the Feistel step of the key schedule has an inverse (`F_inv`); 8 j steps back from the pair |
| C104 | KuzModel.v | each layer xors its keystream (`ctr_block`), xor commutes and cancels; the MAC by `kimit_ok` |
| C105 | KuzModel.v | equal blocks would make two counters equal, the cipher being injective |
| C106 | LocaleModel.v: libstdc++'s num_get with the locale as a parameter, and strtoull's white space | induction over the text; the number gathered is that of `scan_digits` (`holds`) |
| C107 | MacMemModel.v: the MACs of Magma and GOST 28147-89 with keys that act on the world and memory that may run out | as for C93 and C98: at each step the run goes on like the one without failures, or throws |
| C108 | the CFB classes of both namespaces | induction over pairs of blocks on the mode as a function; C14 and C16 carry it to the classes |
| C109 | ECBSink, ECBSource | C09 and C10 block by block |
| C110 | EncryptionBase, ECBSink, both CFBSinks, DataImit, recording events | induction over the data for the shape; the first two rounds of a block give its halves away; CFB encrypts the register, which is the block before |
| C111 | ECBSource::read and both CFBSource::read, recording events | a relation between two runs, kept by sequencing and by the loop; sources related by a simulation |

## 4. Trusted base

* Coq's kernel (8.16.1), including its virtual machine (`vm_compute` is used in examples
  and in finite sweeps over nibbles and bytes).
* No axioms: `Print Assumptions` says "Closed under the global context" for every theorem
  in the manifest (section 6). The plug-ins loaded with the standard library (`lia`, `zify`,
  ssreflect's `under`) bring names that `coqchk` lists; no theorem depends on them.
* That the model says what the C++ code does. It was written by reading the sources; it is
  tested against every vector of /repo/test in `TestVectors.v` and against the vectors of
  the standards in the examples. The tables (Sboxes, Kuznyechik's S and L coefficients,
  round constants) are transcribed and compared with the standards' tables by proof.
* That the specifications (`SpecMagma.v`, `SpecKuz.v`, `SpecModes.v`, `SpecMac.v`,
  `SpecText.v`, ...) say what the standards and the English statements say.

### What is modelled

Every .cpp file under /repo/goost and every header that contains code: the block classes
of magma and kuznyechik, Sboxes, keys and key data, LazyKey, EncryptionBase, ECB and CFB
sinks and sources (gost89/ECBSink.h and gost89/ECBSource.h are the magma classes under
another name), Imit of both ciphers, DataImit and ImitedBlock, makeKey from a Container,
StMemory, StCTREncrypted and their iterators, BlkCached, KeyCachedData; from the C++
library: `std::stoull` base 16, `istringstream >> hex >> uint32_t`, `string::substr`,
`vector::operator[]` and the raw memory accesses through `&v[0]`.

Three models of the same objects exist at different levels of detail:

1. *Outcomes*: a Block is the outcome of its value(), a cache is invisible
   (`MagmaModel.v`, `KuzModel.v`, `Streams.v`).
2. *Objects* (`DeepModel.v`, `DeepMagma.v`, `CacheModel.v`): shared trees of objects with
   mutable caches in a store, user-defined Block and KeyData classes that fail or change
   their answers, the number of evaluations, and the number of nested calls. C42 relates
   level 2 to level 1 for every history of calls; `C50_..._partial` for every message.
3. *Threads* (`ConcModel.v`, `NetModel.v`): each access to the members of KeyCachedData and BlkCached is
   a step; any number of threads, any interleaving; memory is sequentially consistent, or
   TSO (stores of a thread become visible in order), or PSO (in any order per location).
   Data races are defined as in [intro.races], with happens-before being program order,
   since the code has no synchronisation (`SpecConc.v`). `C67_any_objects_partial` relates
   level 3 to level 2.

Beside these, for single questions: lifetimes of objects and what destructors do
(`LifeModel.v`, C72, C73), what an observer of memory accesses and branches sees
(`LeakModel.v`, `StreamLeakModel.v`, `SourceLeakModel.v`, C74, C75, C110, C111), the classes the tests are made of (`HarnessModel.v`, C76-C78)
and the test program itself (`SuiteModel.v`, C99, C100),
machines of another byte order or strict alignment (`PortModel.v`, C86-C90), keys with
state and effects (`EffModel.v`, C92, C93), compilers that use the rules on aliasing and
on objects under construction (`AliasModel.v`, C94), and memory that runs out
(`MemModel.v`, C98). Each is related to level 1 by theorems.

### What is not modelled

* Aliasing rules for the `reinterpret_cast`s in ECBSink, ECBSource, DataImit and BlkR,
  except in `AliasModel.v` (C94).
* Byte order is little-endian and every alignment allowed, except in `PortModel.v`
  (C86-C90), which repeats the functions concerned with the machine as a parameter.
* Exhaustion of memory (`bad_alloc`), except in the stream classes (`MemModel.v`, C98), the MACs
  (`MacMemModel.v`, C107) and Kuznyechik's objects (`KuzMemModel.v`, C102), and
  integer overflow of sizes near 2^64; stack depth is modelled for block objects (C50) and
  for destructors (C73).
* Time; wiping of key material. What the cache and the branch predictor show is modelled for
  the block functions (C74, C75), the sinks and DataImit (C110) and the sources (C111).
* User-defined `Key` classes are pure functions of their arguments in `Streams.v`
  (`KUser`), with effects in `EffModel.v`; user-defined Block, KeyData, Source, Sink and Iterator classes may be stateful
  or throw where the theorems say so. User-defined classes that call back into the
  object calling them are considered for the two caches only (`ReentModel.v`, C101).
* In ECBSource's constructor from a Container the call of the member function makeKey()
  before the base is initialised, except in `AliasModel.v`; elsewhere the model calls the
  function.
* `locale` settings that change what `istringstream` accepts, except in `LocaleModel.v`
  (C106); elsewhere the "C" locale is assumed.
* The 2out library the tests are written with, except what its matches compare
  (`SuiteModel.v`); CMake and conan files.

## 5. Files

| file | contents |
|------|----------|
| Base.v | Common vocabulary of the model: outcomes, machine words, bytes. Nothing in this file depends on the library being modelled. |
| Text.v | Character strings and the standard-library number parsers the code calls: [std::stoull(s, &pos, 16)] and [istringstream >> hex >> uint32_t]. |
| MagmaModel.v | Model of goost/magma: substitution tables, keys and blocks. The stream classes are in Streams.v. |
| Streams.v | Model of the stream classes: goost::Source / goost::Sink and their implementations in goost/magma and goost/gost89, magma::Imit over a Source, and gost89::DataImit. |
| KuzModel.v | Model of goost/kuznyechik. |
| SpecText.v | Specification of hexadecimal text, independent of the parsers in Text.v. |
| SpecMagma.v | Specification: the 64-bit block cipher "Magma" of GOST R 34.12-2015 (RFC 8891), transcribed from the standard. Numbers are elements of N; the block a1\|\|a0 is a1 * 2^32 + a0. Nothing here refers to the model of the code. |
| TestVectors.v | Validation of the model against every test vector in /repo/test (these are tests of the model, not proofs of properties). |
| SpecModes.v | Specification: modes of operation (GOST R 34.13-2015 and GOST 28147-89) over an arbitrary block cipher given as a function on numbers. |
| Lib.v | General lemmas about the vocabulary of Base.v. |
| MagmaProofs.v | Proofs about the Magma block cipher, its tables and keys. |
| SboxProofs.v | Proofs about the substitution tables of Magma. |
| TextProofs.v | Proofs about the number parsers. |
| MagmaSpecProofs.v | The block functions compute the standard's Magma; keys from text and words. |
| BlockProofs.v | Proofs about the block combinators: shifts, exclusive or, string literals. |
| CacheModel.v | Model of the two caching decorators with their mutable state, over wrapped objects that may themselves be stateful or throw. |
| SpecCache.v | Specification of a cache: nothing but "the answers of the first load that succeeded". |
| CacheProofs.v | Proofs about the caching decorators. |
| SpecStreams.v | Vocabulary in which the stream properties are stated: what it means that a key enciphers by a function, that a source delivers given bytes, and observers put around user-supplied sinks and sources. |
| ByteProofs.v | Bytes, blocks and the memory operations of the stream classes. |
| SinkProofs.v | Proofs about the sinks. |
| SourceProofs.v | Proofs about the sources. |
| StreamProofs.v | Proofs about the stream classes at the level of their public methods. |
| TowerProofs.v | Proofs about stacked sinks and sources. |
| StreamFacts.v | The lemmas behind PropStreams.v. |
| SpecMac.v | Specification: message authentication as the library's users read it. |
| SpecKuz.v | Specification: the 128-bit block cipher "Kuznyechik" of GOST R 34.12-2015 (RFC 7801), transcribed from the standard. A block a15\|\|...\|\|a0 is the number with the base-256 digits a0 (least significant) .. a15. Nothing here refers to the model of the code. |
| SpecIter.v | What a client observes of a Kuznyechik stream: call next() [n] times and then ask the iterator for its block, last() or size(). |
| MacProofs.v | Proofs about magma::Imit and gost89::DataImit. |
| KuzProofs.v | Proofs about the Kuznyechik block cipher: the specification is bijective and the model of the code computes it. |
| KuzStreamProofs.v | Proofs about Kuznyechik streams: StMemory, StCTREncrypted and Imit. |
| KuzFacts.v | Remaining facts about goost/kuznyechik: unsafe inputs, literals, key strings. |
| ContainerProofs.v | Proofs about keys from containers. |
| DeepModel.v | The block objects of goost/kuznyechik as objects: trees of shared pointers whose value() methods call each other, with the mutable caches of the round keys and with the number of nested calls bounded by the stack. KuzModel.v is the same code with every object replaced by the outcome of its value(). |
| SpecDeep.v | Vocabulary for the properties of DeepModel.v. |
| DeepProofs.v | Proofs about DeepModel.v: the objects compute what KuzModel.v says, every cache is filled at most once, and how deep value() calls nest. |
| DeepMagma.v | The block objects that magma::Imit builds, as objects: trees of shared pointers whose value() methods call each other, with the number of nested calls bounded by the stack. MagmaModel.v and Streams.v are the same code with every object replaced by the outcome of its value(). |
| DeepMagmaProofs.v | Proofs about DeepMagma.v: the objects of magma::Imit compute what Streams.v says when the stack is deep enough, and how deep it must be. |
| ConcModel.v | Several threads calling the methods of shared KeyCachedData and BlkCached objects: the memory accesses the methods make, and how they may interleave. |
| SpecConc.v | Data races, as C++ defines them ([intro.races]), and finished executions. |
| ConcProofs.v | Proofs about ConcModel.v. |
| PropMagma.v | Properties of the Magma block cipher, its keys and tables: C01-C07, C44, C45. |
| PropCache.v | Properties of the caching decorators: C08, C41. |
| PropStreams.v | Properties of the ECB and CFB stream classes: C09-C20, C48, C49. |
| PropMac.v | Properties of magma::Imit and gost89::DataImit: C21, C22, C23 (magma), C24, C25. |
| PropKuz.v | Properties of goost/kuznyechik: C23 (kuznyechik part), C26-C40, C43. |
| PropContainer.v | Properties of keys from containers: C47. |
| PropDeep.v | Properties of block objects that share mutable caches and of the depth to which their value() calls nest: C42, C50. |
| PropConc.v | Properties of cached objects shared between threads: C46. |
| SpecMore.v | Further vocabulary for the stream properties of PropMore.v. |
| SpecFail.v | A Kuznyechik stream that fails at a position. |
| StreamMore.v | Proofs about resumed, broken and damaged streams. |
| KeyMore.v | Proofs about key material, substitution tables and gost89::DataImit beyond the standard cases (PropMore.v). |
| TailProofs.v | CFB with an incomplete last block on processors that tolerate the stray accesses: what comes back instead of the tail. |
| OddReads.v | The decrypting sources over an underlying source that answers read(8) with a number of bytes other than 8. |
| KuzMore.v | Proofs for PropKuzMore.v. |
| PropMore.v | Further properties of the streams, the keys and the MAC of GOST 28147-89: C51-C64, and the incomplete last block of C15 on x86. |
| PropKuzMore.v | Further properties of goost/kuznyechik: C55, C65, C66. |
| NetModel.v | Several threads using one kuznyechik::Key or one magma::LazyKey: the code of DeepModel.v and MagmaModel.v as programs over the shared caches of ConcModel.v. |
| NetProofs.v | Proofs about NetModel.v. |
| SpecGost.v | Specification: GOST 28147-89, the cipher of SpecMagma.v with any tables and with the key given as eight words. |
| NetFacts.v | Keys shared between threads: what PropNet.v needs, from the lemmas of NetProofs.v. |
| PropNet.v | Whole keys shared between threads: C67 (Kuznyechik), C68 (Magma); GOST 28147-89 with other tables: C69. |
| SpecNumber.v | Specification: how the C++ library reads a hexadecimal number at the beginning of a text (strtoull with base 16, operator>> with hex). |
| NumberProofs.v | Proofs about the parsers of Text.v against SpecNumber.v. |
| PropNumber.v | What the text of a key or a block literal means, well-formed or not: C70. |
| WorkModel.v | How many calls of value() an evaluation makes: the same code as DeepModel.v and DeepMagma.v, counting. |
| WorkProofs.v | Proofs about WorkModel.v. |
| WorkExact.v | The exact number of value() calls of magma::Imit. |
| PropWork.v | The number of value() calls a message takes: C71. |
| LifeModel.v | Lifetimes: objects owned by shared_ptr, their reference counts and their destruction. What the objects compute is in the other models. All classes of goost keep what they own in const members that the constructor initialises (for instance goost/kuznyechik/BlkEncrypted.h:23-24, goost/magma/ECBSink.h:25-26), so an object refers only to objects that existed before it. A unique_ptr member (LazyKey.h:34, KeyCachedData.h:22-23, SboxByte.h:38-41, SboxTwisted.h:20) is a shared_ptr that is never copied. |
| SpecLife.v | Vocabulary for the properties of LifeModel.v. |
| LifeProofs.v | Proofs about LifeModel.v. |
| PropLife.v | When objects are destroyed, and how much stack that takes: C72, C73. |
| LeakModel.v | What an observer of the machine sees while a block is being encrypted: the index of every table element that is read (through the data cache) and the outcome of every "if" on the way (through the branch predictor or the time it takes). The functions are those of MagmaModel.v and KuzModel.v once more, now writing down these events; LeakProofs.v proves that their results are the same. Simplifications: the key words and round keys are already loaded (second and later blocks of a message), so the accesses of KeyCachedData and BlkCached depend on nothing secret and are left out, as are the indices of loops with constant bounds. Where C++ leaves the order of operands open, it is left to right. A compiler may turn a branch into a conditional move; the model speaks of the source. |
| SpecLeak.v | What the observer keeps of the events: only the table accesses, or only the branches; and which of two runs cannot be told apart. |
| LeakProofs.v | Proofs about the events of LeakModel.v. |
| PropLeak.v | C74, C75: what the machine lets an observer learn while a block is encrypted. |
| HarnessModel.v | Model of the classes the project's own tests are made of (/repo/test): the sources, sinks and containers that feed the library, and the texts and matches that judge its results. |
| SpecHarness.v | Specification of what the texts of the project's tests mean, independent of HarnessModel. |
| HarnessProofs.v | Proofs about the classes of the tests. |
| PropHarness.v | The project's own tests: C76, C77, C78. |
| SepProofs.v | Proofs about MACs of messages that differ in the size of their last block only. |
| PropSep.v | Property C79: the size of the last block takes part in the MAC. |
| RetryProofs.v | Proofs about writes that are repeated or resumed after a failure of the underlying sink. |
| PropRetry.v | Property C80: writes repeated after a failure of the underlying sink. |
| SpecWeak.v | Specification: what messages and keys that are related in a simple way have to do with each other. |
| WeakProofs.v | Proofs about related keys, keys with repeated words, and related messages. |
| PropWeak.v | Properties C81-C85: related messages, related keys, keys with repeated words, and the MAC of what a source decrypts. |
| PortModel.v | Model of the code on other machines: byte order and alignment. The rest of the model takes a little-endian machine that allows every access (as x86 does). Here the functions that look at numbers as bytes in memory, or at bytes as numbers, are written down again with the machine as a parameter; everything else (rounds, tables, shifts) works on numbers and is used as it is. On the machine of the rest of the model both agree (C86_same_sinks, C86_same_sources, C86_same_macs, C86_same_kuznyechik). Addresses: storage of a vector begins at an address [heap] of which nothing is known here (the theorems assume what operator new guarantees); local arrays of bytes begin anywhere. An access of [n] bytes through a cast pointer at an address that is no multiple of [n] is undefined on a machine that insists on alignment. memcpy and accesses to single bytes are always allowed. That casts of byte pointers also break the rules on aliasing is left out. |
| SpecPort.v | Vocabulary for machines with another byte order. |
| PortProofs.v | Proofs about the code on machines with another byte order or strict alignment. |
| PortMore.v | Proofs about the CFB streams and magma::Imit on other machines. |
| PortKuz.v | Proofs about Kuznyechik on other machines. |
| PropPort.v | Properties C86-C90: byte order and alignment of the machine. |
| CrashProofs.v | Proofs about what a stack of sinks has handed down when it fails or is abandoned. |
| PropCrash.v | Property C91: what is stored when writing fails or stops. |
| EffModel.v | Model of the stream classes with keys that act on the world. |
| SpecEff.v | Vocabulary for C92 and C93: records of calls, keys that fail now and then. |
| EffProofs.v | Proofs about keys that act on the world. |
| PropEff.v | Properties C92 and C93: keys that act on the world. |
| AliasModel.v | Model of the code under the language's rules on access to objects. |
| AliasProofs.v | Proofs for C94. |
| PropAlias.v | Property C94: the language's rules on access to objects. |
| CollProofs.v | Proofs for C95: continued collisions and collisions from encrypted blocks. |
| ReflProofs.v | Proofs for C96 and C97: the middle of the rounds. |
| PropColl.v | Properties C95-C97. |
| MemModel.v | The stream classes with memory that may run out. |
| MemProofs.v | Proofs for C98. |
| PropMem.v | Property C98. |
| SuiteModel.v | The project's test program and the example of the package. |
| SpecSuite.v | Vocabulary for C99 and C100: what the tests look at. |
| SuiteProofs.v | Proofs for C99 and C100. |
| PropSuite.v | Properties C99 and C100. |
| ReentModel.v | The two caches over wrapped objects that call them back. |
| SpecReent.v | Vocabulary for C101: what a wrapped object says, and the objects for the refutations. |
| ReentProofs.v | Proofs for C101. |
| PropReent.v | Property C101. |
| KuzMemModel.v | Kuznyechik's objects with memory that may run out. |
| KuzMemProofs.v | Proofs for C102. |
| PropKuzMem.v | Property C102. |
| KuzAlgProofs.v | Proofs for C103-C105. |
| PropKuzAlg.v | Properties C103-C105. |
| LocaleModel.v | Reading hexadecimal text under any locale. |
| SpecLocale.v | Text with separators. |
| LocaleProofs.v | Proofs for C106. |
| PropLocale.v | Property C106. |
| MacMemModel.v | MACs with memory that may run out. |
| MacMemProofs.v | Proofs for C107. |
| PropMacMem.v | Property C107. |
| SpecInter.v | Lists of blocks taken apart. |
| InterProofs.v | Proofs for C108 and C109. |
| PropInter.v | Properties C108 and C109. |
| StreamLeakModel.v | The sinks and DataImit, recording table accesses and branches. |
| StreamLeakProofs.v | Proofs for C110. |
| PropStreamLeak.v | Property C110. |
| SourceLeakModel.v | ECBSource and the CFBSources, recording table accesses and branches. |
| SpecSourceLeak.v | Two runs that end the same way; sources that deliver the same amounts. |
| SourceLeakProofs.v | Proofs for C111. |
| PropSourceLeak.v | Property C111. |

## 6. Assumptions per theorem

`Print Assumptions` at the end of each `Prop*.v` prints "Closed under the global context"
for every theorem listed here, that is, no theorem uses any axiom.

| property | status | theorems |
|----------|--------|----------|
| C01 | proved | C01_decrypt_inverts_encrypt, C01_encrypt_inverts_decrypt, C01_total |
| C02 | proved | C02_encrypted_is_Magma, C02_decrypted_is_Magma |
| C03 | proved | C03_EncryptionBase_is_BlkEncrypted |
| C04 | proved | C04_SboxR3412_value, C04_SboxR3412_permutation |
| C05 | proved | C05_packed_tables, C05_container_table |
| C06 | proved | C06_hex_key_words, C06_wrong_size, C06_wrong_index |
| C07 | refuted in part | C07_nothing_rejected, C07_refuted |
| C08 | proved | C08_history, C08_history_unique, C08_after_first_answer, C08_pure |
| C09 | proved | C09_any_key, C09_blocks, C09_split, C09_unaligned |
| C10 | proved | C10_round_trip, C10_all_of_it, C10_memory_source |
| C11 | refuted in part | C11_refuted, C11_no_error_x86, C11_garbage_x86 |
| C12 | refuted in part | C12_refuted |
| C13 | proved | C13_magma, C13_gost |
| C14 | proved | C14_hex_keys, C14_total_keys, C14_magma, C14_gost |
| C15 | refuted in part | C15_magma_tail_partial, C15_gost_tail_partial, C15_tail_returns_iff, C15_magma_whole_blocks_partial, C15_gost_whole_blocks_partial, C15_magma_refuted, C15_gost_refuted, C15_x86_refuted |
| C16 | proved | C16_magma, C16_gost, C16_pieces |
| C17 | proved | C17_magma_terminates, C17_gost_terminates, C17_magma_exact, C17_gost_exact |
| C18 | proved | C18_gost, C18_magma |
| C19 | proved | C19_ecb, C19_magma, C19_gost |
| C20 | refuted in part | C20_refuted, C20_ECBSink_any_key |
| C21 | refuted in part | C21_refuted, C21_refuted_wide_shift, C21_x86_partial, C21_x86_any_length_partial |
| C22 | refuted in part | C22_refuted |
| C23 | partial | C23_kuznyechik, C23_magma_x86_partial |
| C24 | refuted in part | C24_refuted |
| C25 | proved | C25_mac, C25_hex_keys, C25_total, C25_padding |
| C26 | proved | C26_encryption, C26_key_blocks |
| C27 | proved | C27_permutation, C27_injective, C27_unreadable_key |
| C28 | proved | C28_round_keys, C28_iter_key, C28_iter_key_empty, C28_iter_key_overflow |
| C29 | proved | C29_gmul, C29_BlkR, C29_BlkL, C29_BlkR_linear, C29_BlkL_linear, C29_BlkR_bijective, C29_BlkL_bijective |
| C30 | proved | C30_increment, C30_counter, C30_no_repeat, C30_no_repeat_across_iv |
| C31 | proved | C31_block, C31_shape, C31_self_inverse, C31_ctr_mode, C31_presents_loop, C31_keys, C31_hex_keys |
| C32 | proved | C32_one_stream, C32_across_iv |
| C33 | proved | C33_enumeration, C33_end, C33_presents |
| C34 | refuted in part | C34_refuted_odd, C34_refuted_empty, C34_not_shared, C34_whole_blocks_partial |
| C35 | proved | C35_mac, C35_mac_of_memory, C35_mac_of_ciphertext |
| C36 | refuted in part | C36_refuted, C36_value_partial |
| C37 | refuted in part | C37_refuted, C37_refuted_loop, C37_StMemory_partial |
| C38 | proved | C38_magma, C38_kuznyechik |
| C39 | refuted in part | C39_refuted_too_long, C39_refuted_garbage, C39_rejected_partial |
| C40 | partial | C40_halves, C40_refuted_short, C40_refuted_long, C40_rejected_partial |
| C41 | proved | C41_history, C41_after_first_answer, C41_failure_leaves_empty |
| C42 | proved | C42_invisible, C42_as_if_fresh, C42_once, C42_stable |
| C43 | proved | C43_shift, C43_undefined_outside |
| C44 | refuted in part | C44_refuted, C44_x86_value, C44_x86_zero_wrong |
| C45 | proved | C45_xored_magma, C45_xored_kuznyechik, C45_grouping |
| C46 | refuted in part | C46_refuted_race_key, C46_refuted_race_blk, C46_refuted_values_key, C46_refuted_values_blk, C46_key_partial, C46_blk_partial, C46_key_throws_partial, C46_blk_throws_partial, C46_key_loaded_partial, C46_blk_loaded_partial, C46_go_on_partial, C46_key_accesses_partial, C46_blk_accesses_partial |
| C47 | partial | C47_round_trip_partial, C47_same_key_partial, C47_any_table_partial, C47_refuted_mask, C47_overflow, C47_short |
| C48 | proved | C48_sinks, C48_sources_blocks, C48_sources_any_size, C48_CFBSource_is_source, C48_ECBSource_is_source |
| C49 | proved | C49_ecb, C49_magma, C49_gost |
| C50 | refuted in part | C50_refuted_imit, C50_refuted_imit_memory, C50_refuted_ctr, C50_refuted_magma, C50_imit_partial, C50_ctr_partial, C50_magma_partial |
| C51 | refuted in part | C51_magma_sink_partial, C51_gost_sink_partial, C51_magma_sink_refuted, C51_gost_sink_refuted, C51_magma_leak_refuted, C51_gost_leak_refuted, C51_magma_source, C51_gost_source |
| C52 | proved | C52_corruption |
| C53 | proved | C53_gost, C53_magma |
| C54 | proved | C54_gost, C54_magma |
| C55 | proved | C55_reuse |
| C56 | proved | C56_detects |
| C57 | refuted in part | C57_refuted |
| C58 | refuted in part | C58_nibble_refuted, C58_byte_refuted, C58_nibble_defined_iff, C58_byte_defined_iff, C58_nibble_extra, C58_byte_extra |
| C59 | refuted in part | C59_short_refuted, C59_long_refuted |
| C60 | refuted in part | C60_cached_partial, C60_index_refuted, C60_eager_refuted |
| C61 | proved | C61_blocks, C61_ecb_write, C61_magma_write, C61_magma_finalize, C61_gost_write, C61_gost_finalize, C61_magma_read, C61_gost_read, C61_ecb_read |
| C62 | proved | C62_magma, C62_gost, C62_ecb, C62_imit |
| C63 | proved | C63_magma, C63_gost, C63_ecb |
| C64 | refuted in part | C64_magma_long_refuted, C64_gost_long_refuted, C64_magma_short_refuted, C64_gost_short_refuted, C64_ecb_long_refuted |
| C65 | proved | C65_same_bits, C65_position |
| C66 | proved | C66_imit, C66_ctr |
| C67 | refuted in part | C67_refuted_race, C67_refuted_values, C67_values_partial, C67_standard_partial, C67_any_objects_partial, C67_warm_partial |
| C68 | refuted in part | C68_refuted_race, C68_refuted_values, C68_values_partial, C68_standard_partial, C68_warm_partial |
| C69 | proved | C69_nibble, C69_packed, C69_string |
| C70 | proved | C70_kuznyechik_value, C70_magma_value, C70_kuznyechik_rejected, C70_magma_rejected, C70_padding, C70_key_word, C70_unique |
| C71 | refuted in part | C71_refuted_ctr, C71_refuted, C71_ctr_partial, C71_imit_partial, C71_magma_partial, C71_magma_exact |
| C72 | proved | C72_safe, C72_exact, C72_no_leak, C72_finishes |
| C73 | refuted in part | C73_refuted_ctr, C73_refuted_imit, C73_refuted_magma, C73_partial |
| C74 | refuted in part | C74_same_magma, C74_same_tables, C74_same_kuznyechik, C74_magma_refuted, C74_nibbles_refuted, C74_bytes_refuted, C74_kuznyechik_refuted |
| C75 | refuted in part | C75_kuznyechik_refuted, C75_imit_branch, C75_imit_refuted, C75_magma_partial |
| C76 | refuted in part | C76_exact, C76_refuted, C76_refuted_short, C76_partial, C76_source_exact, C76_source_refuted, C76_cfb_test |
| C77 | proved | C77_hex64, C77_hex64_source, C77_hex64_ascii, C77_source_text, C77_distinct, C77_magma_sink, C77_gost_sink, C77_ecb_sink, C77_magma_source, C77_gost_source, C77_ecb_source, C77_magma_block, C77_kuznyechik_block, C77_magma_block_equal, C77_kuznyechik_block_equal, C77_native_key, C77_string_key |
| C78 | refuted in part | C78_digits_partial, C78_key_partial, C78_size_partial, C78_refuted_space, C78_refuted_garbage |
| C79 | refuted in part | C79_refuted, C79_kuznyechik_partial, C79_magma_partial, C79_masks |
| C80 | refuted in part | C80_magma_refuted, C80_gost_refuted, C80_ecb_refuted, C80_magma_resume_partial, C80_gost_resume_partial |
| C81 | proved | C81_magma, C81_gost |
| C82 | proved | C82_extension |
| C83 | proved | C83_involution, C83_same_directions, C83_hex_keys |
| C84 | proved | C84_top_bits, C84_hex_keys, C84_mac |
| C85 | proved | C85_mac_of_decrypted |
| C86 | refuted in part | C86_same_sinks, C86_same_sources, C86_same_macs, C86_same_kuznyechik, C86_ecb_big, C86_magma_big, C86_gost_big, C86_magma_first, C86_gost_first, C86_Imit_big, C86_DataImit_big, C86_kuznyechik_big, C86_ecb_refuted, C86_cfb_refuted, C86_macs_refuted, C86_kuznyechik_refuted |
| C87 | proved | C87_magma, C87_gost |
| C88 | refuted in part | C88_little, C88_big, C88_refuted |
| C89 | refuted in part | C89_streams, C89_needs_alignment, C89_BlkR_refuted, C89_refuted |
| C90 | proved | C90_makeKey, C90_BlkS |
| C91 | proved | C91_stored, C91_readable_blocks, C91_readable |
| C92 | proved | C92_same_keys, C92_same_sinks, C92_same_sources, C92_order_encrypt, C92_order_ecb, C92_order_decrypt, C92_order_ecb_sink, C92_order_magma_sink, C92_order_gost_sink, C92_order_finalize, C92_order_magma_source, C92_order_gost_source, C92_order_ecb_source |
| C93 | proved | C93_ecb_sink, C93_magma_sink, C93_gost_sink, C93_finalize, C93_ecb_source, C93_magma_source, C93_gost_source |
| C94 | partial | C94_same_streams, C94_same_kuznyechik, C94_cfb_partial, C94_BlkS_partial, C94_ecb_partial, C94_ecb_sink_refuted, C94_ecb_source_refuted, C94_DataImit_refuted, C94_kuznyechik_refuted, C94_container_refuted |
| C95 | partial | C95_magma_x86_partial, C95_kuznyechik, C95_gost, C95_ecb_block_x86_partial, C95_block_kuznyechik |
| C96 | proved | C96_half_rounds |
| C97 | proved | C97_fixed, C97_hex_keys |
| C98 | proved | C98_same_sinks, C98_same_sources, C98_ecb_sink, C98_magma_sink, C98_gost_sink, C98_finalize, C98_ecb_source, C98_magma_source, C98_gost_source |
| C99 | partial | C99_x86, C99_refuted, C99_partial, C99_others, C99_status, C99_package |
| C100 | partial | C100_refuted |
| C101 | partial | C101_refuted, C101_refuted_mixed, C101_refuted_stack, C101_refuted_stack_block, C101_refuted_block, C101_same, C101_settled_partial, C101_settled_block_partial, C101_fixed_partial, C101_fixed_block_partial |
| C102 | proved | C102_same, C102_encrypt, C102_recovers, C102_imit, C102_ctr, C102_any |
| C103 | proved | C103_any_pair, C103_different |
| C104 | proved | C104_commute, C104_removed, C104_shape, C104_mac |
| C105 | proved | C105_moved, C105_wrong_iv |
| C106 | partial | C106_classic, C106_keys, C106_any_text, C106_refuted, C106_separators, C106_misplaced, C106_never_rejected, C106_blocks |
| C107 | proved | C107_same, C107_imit, C107_never_wrong, C107_dataimit |
| C108 | proved | C108_sink, C108_source |
| C109 | proved | C109_equal, C109_rearranged |
| C110 | partial | C110_same_sinks, C110_same_dataimit, C110_sinks_partial, C110_dataimit_partial, C110_ecb_refuted, C110_dataimit_refuted, C110_cfb_refuted, C110_cfb_last_partial, C110_magma_refuted, C110_magma_last_partial |
| C111 | proved | C111_same, C111_ecb, C111_gost_cfb, C111_magma_cfb, C111_reads |
