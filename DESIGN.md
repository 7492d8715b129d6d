# Formal model of dkales/banquet in Rocq (Coq 8.16.1)

The model covers the release build of /repo (CMake default `CMAKE_BUILD_TYPE=Release`, so `assert` is compiled out;
DebugModel adds the assertions, C64), on
x86-64 with the flags the build adds (`-mpclmul -msse2 -msse4 -maes`, and `USE_AVX2=ON` for keccak, both defaults), plus the
portable Keccak code that is built with `USE_AVX2=OFF`.  Nothing in /repo was built or run; it was read as text.

## 1. Trusted base

1. **Coq's kernel** (8.16.1), including its virtual machine (`vm_compute` is used for closed computations).  `native_compute`
   is not used.  No kernel check is switched off, there are no axioms, `Admitted`, functors, module types or plugins.
2. **`Print Assumptions`**, printed under every property theorem: *Closed under the global context* for all of them.  The
   standard library's axioms (functional extensionality and so on) are not used.  vcheck also lists seven constants of
   `Coq.ssr.ssrunder`: standard-library files required here load that library (through `Coq.ssr.ssrsetoid`), which contains
   them; no theorem depends on them.
3. **The model is the code.**  Each definition cites the lines it models and says where it simplifies.  Not derivable inside
   Coq and to be compared by reading:
   * the hand-written Gallina functions of `FieldModel`, `PolyModel`, `AesModel`, `TreeModel`, `ContainerModel`,
     `BanquetModel`, `HashModel`, `SpongeModel`, `SnpSponge`, `Opt64Model`, `Instances`;
   * three files produced by a text-to-text translation of /repo: `Avx2Code` (every instruction of KeccakP-1600-AVX2.s that
     the default build can reach), the round macros of `KeccakModel` (KeccakP-1600-64.macros) and of `Simd256Model`
     (KeccakP-1600-times4-SIMD256.c).  The translation only renames; the output is what is checked.
4. **Semantics of the machine and of the libraries**, written from the vendors' pseudo-code:
   * `_mm_clmulepi64_si128` (FieldModel), `aesenc`, `aesenclast`, `aesimc`, `aeskeygenassist` and the SSE moves, shuffles and shifts aes.cpp uses (AesModel);
   * the x86-64/AVX2 instructions in `X86Model` (integer moves and arithmetic, `vpxor`, `vpand(n)`, `vpsllvq`, `vpsrlvq`,
     `vpermq`, `vpblendd`, `vpshufd`, `vpaddq`, …) and the intrinsics in `Simd256Model`; little-endian memory;
   * the C++ library: `std::vector`, `std::array`, `gsl::span` and `memcpy` as lists with checked accesses; exceptions as
     `Throw`.  Allocation failure is not modelled, except for what a call cut off by one leaves behind (C66).
5. **The random source** (`randomness.c`) is an oracle: for each call, whether it reported success and which bytes the buffer
   then holds.  **Uninitialised memory** is a parameter (`garb`, `m`, `J`) that theorems quantify over.

## 2. Modelling conventions

* Bytes and machine words are `N`; words are truncated explicitly (`mod 2^k`).  Sizes and loop indices are `nat`.
* `res A` is an outcome: `Ok a`, `Throw e` (C++ exception), `UB r` (undefined behaviour, e.g. an out-of-bounds access),
  `OutOfFuel` (a loop that need not end used up the fuel given to the model).  Every access whose index depends on data goes
  through a checked access that yields `UB`.
* Loops whose end depends on hash output or on the random source take fuel.  Theorems say what happens for every fuel, or
  for every sufficiently large one.
* The hash function is a parameter `H : oracle` of the protocol model.  Theorems about keygen, sign, verify, trees, tapes and
  challenges hold for *every* function H.  C29-C31 and C49-C53 show that the code behind `kdf_shake.h` computes one such
  function, SHAKE of FIPS 202.
* The static variables of `GF2E` are an explicit state; API calls are state transitions; a *history* is a list of calls.
  For threads (C56) a call is a program that accesses these variables one at a time, and a schedule is a list of thread numbers.
* Property theorems are in `Prop*.v`, each closed by `exact lemma` (or a witness), followed by `Print Assumptions` and by an
  `Example` showing that the hypotheses are met.  Specifications are in `*Spec.v`; of the model they use at most data types and the functions of the API.

## 3. What is modelled

| /repo | modelled by | not modelled |
|---|---|---|
| banquet.cpp, banquet.h, types.h, tape.cpp/h | BanquetModel, ContainerModel; MemModel (the same with the flat vectors of RepContainer, C76); DebugModel (assertions); ThreadModel, CutModel (calls interleaved or cut off) | - |
| banquet_instances.cpp/h, macros.h (`ceil_log2`, both `clz`) | Instances | other macros |
| field.cpp, field.h | FieldModel, PolyModel | - |
| aes.cpp, aes.h | AesModel | - |
| tree.cpp, tree.h | TreeModel | - |
| kdf_shake.h | HashModel (interface), SpongeModel, SnpSponge | - |
| randomness.c | oracle in BanquetModel (`rng`); RandModel (`rand_getrandom`, `rand_urandom`, `rand_framework`, `rand_windows`, `os_keygen`), TraceModel (`urandom_calls`, with the `fcntl` calls) over oracles for the system and library calls | - |
| keccak/Keccak{Hash,Sponge}*.{c,inc} | SpongeModel (200-byte state), SnpSponge (any SnP), BitHashModel (whole interface: any rate, suffix, number of bits; return values; one-shot `Sponge()`), SnpHash, SnpHash4 (the same over any SnP, PlSnP) | |
| keccak/opt64 | KeccakModel (permutation), Opt64Model, Opt64More, FourModel (functions the sponge does not use) | Kravatte (unused) |
| keccak/avx2/KeccakP-1600-AVX2.s | X86Model, Avx2Code, Avx2Model, StateModel | - |
| keccak/avx2/KeccakP-1600-times4-SIMD256.c | Simd256Model, FourModel, Fast4Model, KravModel | KravatteExpand (unused) |
| gsl-lite.hpp, portable_endian.h | as list accesses / little endian | big-endian branch |
| tools/bench.cpp, bench_free.cpp, bench_utils.cpp/h | ToolModel | the times, the variants for Microsoft's compiler, failing allocations |
| tools/bench_timing.cpp/h | TimerModel; in ToolModel whether the timer can be set up is a parameter | the instructions that set up the counter of an ARM processor |
| tests/ | KnownAnswers (the literals of aes_test, field_test, util_test as Examples); kat/run.sh (the signature of banquet_test, see below) | NTL reference code (tests/utils.cpp) |
| cmake/, other tools | | all |

Check of the model against the code's own known answer: `kat/run.sh` extracts `sign`, `serialize`, `deserialize`, `verify` and the
Keccak permutation to OCaml and runs the test "BANQUET L1_Param1 KAT" of tests/banquet_test.cpp (key, message and all 15968
bytes of the expected signature).  The model's signature is equal byte for byte, and the expected bytes are accepted.  This is a
test of the model, not a proof, and nothing depends on it; the 256-bit SHAKE (levels 3 and 5) is not reached by it.

Side channels other than the lookups in the lifting table (C60, LeakModel), timing, compiler and linker are outside the model
(the placement of objects in C52 is a parameter).

Parameter sets: theorems about key generation, signing, verification and serialisation are for every `regular` instance
(FreeSpec.v: one of the three ciphers, a supported field, m1*m2 S-boxes, 1 to 32 seed bytes, at least one repetition, 2^k <= 256
parties, any digest size); `C36_builtin_regular` says that the 23 built-in ones are regular.  `builtin` remains in theorems that
depend on the numbers in the table (C18, C27, C36, C47, C59).  Other party counts are covered by C58.

## 4. Findings

Each is a theorem about the model (or follows from one) and was checked against the text of /repo.

* **F1** (C37) table entries 7 and 8 carry each other's parameter id.
* **F2** (C40) the last coefficient of the P offset, `P_delta[m2]`, is not hashed; in a repetition that leaves
  party 0 closed, or whose R is one of the first 2*m2 points, it can be changed and the signature still verifies: signatures
  are malleable for every hash function.
* **F3** (C09) serialize/deserialize use the static element size left by the last sign/verify; in a fresh process or after
  work on another field they read or write a wrong layout.
* **F4** (C27) the tree constructor overruns a 32-byte stack array exactly when n <= 2^ceil(log2 n) - 16 (n = 33 first); no
  built-in parameter set does.
* **F5** (C27) n = 1 leaf: out-of-bounds access.  **F11** `reveal_all_but` forms `&_data[size]`.
* **F6** (C32) an uninitialised `uint16_t` is shifted into when sampling parties; harmless because the garbage is masked off.
* **F7** (C08) deserialize accepts trailing bytes and reads truncated input out of bounds (only `assert`s guard it).
* **F8** (C44) keygen ignores the result of `rand_bytes`; a failed call leaves zero or stale bytes in the key.
* **F9** `clzl(0)` is undefined in `ceil_log2(0)`, which is guarded (C48).
* **F10** (C47) weak domain separation: e.g. a seed commitment and a tape can have the same hash input.
* **F12** (C29, C30) an update of 2^32 or more bytes after a partial block hangs or overruns; squeezing 2^32 bytes hangs.
* **F13** (C50) `PLATFORM_BYTE_ORDER`/`IS_LITTLE_ENDIAN` are defined nowhere, so that `#if (0 == 0)` selects the little-endian
  branch of `opt64` on every platform; it also reads `uint64_t` at unaligned addresses; `ExtractBytes(0, 200)` reads one lane past the state
  (never reached from the hash interface).
* **F14** (C51) the assembly compares full 64-bit registers for `unsigned int` lengths, whose upper half the ABI leaves open.
* **F15** (C52) `rho8`/`rho56` are read with aligned 256-bit loads but declared without that alignment.
* **F16** (C54, the most serious) the hash of `phase_2_commitment` (banquet.cpp:145-164) covers `P_deltas[rep][k]` for k < m2
  only, but `P_delta` has m2+1 entries and the last is used in verification (banquet.cpp:1076).  It can be chosen
  after the evaluation point R is known, and then made to satisfy the one equation that is checked.  So signatures can be
  made from the public key and the message alone, for every hash function, public key and message (unless a drawn R
  is among the first 2*m2 field elements; then another salt can be tried).  `Forge.v` is the procedure and C54
  proves that verification accepts what it returns; F2 is the same omission.
* **F17** (C56) `sign` and `verify` write the static members of `GF2E` and the lifting table without synchronisation: two threads
  that sign or verify at the same time race; if their parameter sets use different fields, one can access memory out of bounds.
* **F18** (C57) the /dev/urandom variant of `rand_bytes` takes the return value 0 of `read` (end of file) for progress and loops for
  ever; and `banquet_keygen` ignores that `rand_bytes` failed, so with a kernel that refuses (`EAGAIN`) it can return a key pair whose
  plaintext is all zero.
* **F19** (C60) `banquet_sign` indexes the lifting table with the S-box inputs and outputs of the secret evaluation of AES, and with
  all shares of them: who sees which entries are read can compute the secret key from one signature; who sees only the cache
  lines has at most 6^16 candidates (2^16 if the table is aligned) for 16 bytes of it.
* **F20** (C61) `banquet_sign` does not check its key pair (the only check is an assert, compiled out in the default build).
  With a secret key for which some S-box input is zero (key generation makes none, but a key from elsewhere may be one) the
  recorded S-box outputs are too few and `std::transform` xors the shares past the end of `t_deltas`, in every call.
* **F21** (C64) a build with assertions aborts the process when it deserializes a string that is longer than a signature; the
  release build accepts it (F7).  Neither returns an error.
* **F22** (C65) the benchmark programs take `5x` for 5, and a word for 0 where the library's strtol leaves errno alone.  bench_free
  counts its words, not its operands: with `-i` and fewer than six numbers it passes a null pointer to strtol.  It reports an
  invalid kappa and goes on with uninitialised AES parameters, checks m1 * m2 modulo 2^32, and never sets `params`, which
  signing hashes (undefined behaviour in the strict reading; here an arbitrary value).
* **F23** (C58) with a number of parties that is not a power of two, a reveal list has entries that stand for no node (zeros in an
  honest signature).  Verification never looks at them, so that anybody can change them: such signatures are malleable.
* **F24** (C67) Keccak_HashUpdate accepts an update after one that did not end at a byte boundary, and Keccak_HashSqueeze without
  Keccak_HashFinal.  The header forbids both, but the return value is KECCAK_SUCCESS: in the first case later bytes are hashed
  before earlier bits, in the second the last bits and the suffix are left out.  kdf_shake.h does neither.
* **F25** (C73) banquet_verify checks none of the lengths in a signature object: entries and proofs behind the ones it needs are
  ignored, so that a different object is accepted; missing ones are read out of bounds.  Deserialized objects have the right
  lengths (C42_deserialized).
* **F26** (C76) what a signature object has as the closed party's commitment, key correction or S-box correction is copied or
  xored into a span with the length of the source, not of the span (banquet.cpp:860-862, 910-913, 925-928): what is too long lands in the
  next party's slot, behind the last slot it is a heap overrun.  An accepted object stays accepted if the bytes that are
  there anyway are appended to a commitment.  Not reachable through banquet_deserialize_signature.
* **F27** (C80) KeccakP1600_Permute_Nrounds with 0 or more than 24 rounds: the C code does nothing for 0 and for even numbers and
  reads beyond KeccakF1600RoundConstants for odd ones; the assembly takes neighbouring tables for round constants and for 0
  goes on into memory beyond them.  Not called in this repository.
* **F28** (C80, C83) KeccakP1600_ExtractAndAddBytes of the C code, like its ExtractBytes and the four-way functions built on them, reads a lane beyond the state when called with
  offset 0 and length 200.  Not called in this repository.
* **F29** (C80) the absorbing loops with 0 lanes per block: the C code does not end, the assembly runs through memory.  The sponge
  rejects a rate of 0.
* **F30** (C81, C82) Keccak_HashInitialize and its four-way version accept a rate of 1600 bits; with the C code, output of a whole block then reads a lane beyond
  the state.  Not used in this repository.
* **F31** (C83) KeccakP1600times4_ExtractLanesAll with fewer lanes between the rows of the output than are written: the intrinsics write
  lane by lane, the C code state by state, so what is left where the rows overlap differs.  The sponge does not call it.
* **F32** (C84) The absorbing loops on four states do not end when laneOffsetSerial is 0, and read beyond the data when the last block
  advances beyond its end.  KeccakSpongetimes4.inc:78 passes 0 for both offsets, and calls the loop once for each state although it
  acts on all four: the line that would enable it (KeccakSpongetimes4.c:24, "can we enable fastloop absorb?") must stay commented out.
* **F33** (C87) KeccakP1600times4_KravatteCompress with less than 800 bytes of input reads beyond it: the loop is a do-while on
  `--nBlocks != 0`, and nBlocks is 0.  The function is not used in this repository.

## 5. Properties

Status per property; the theorem names are in MANIFEST.json.  "refuted": the property as stated is false of the code, and a
theorem exhibits it; the `_partial` theorems say what is true instead.

| id | title | status | how |
|---|---|---|---|
| C01 | Honest signatures verify | proved | keys from keygen, any H, message, states and garbage. Verification recomputes the signer's hash inputs repetition by repetition (BanquetRun) from C16-C18, C20-C28, C46. |
| C02 | Signing never hits the internal sanity-check exception or an out-of-bounds access | proved | same development; the only outcome besides a signature is fuel exhaustion, with the hash output that causes it. |
| C03 | Key generation yields a consistent key pair | proved | induction over the keygen loop; AES from C20, C21. |
| C04 | Serialization round trip | proved | round trip by induction over the fields of the signature. |
| C05 | A signature survives transport as bytes | proved | C01 + C04 + the shape of produced signatures. |
| C06 | Serialized length depends only on the parameter set | proved | closed formula for the length; holds for every well-shaped signature. |
| C07 | Serialized form is canonical | proved | serialize after deserialize is the identity on inputs of the right length; injectivity. |
| C08 | Deserialization rejects byte strings of the wrong length | partial | refuted (F7). Partial: exact outcome for every input length. |
| C09 | Deserialization does not depend on earlier calls | partial | refuted (F3). Partial: same answer after any two histories ending in the same field. |
| C10 | Sign and verify do not depend on earlier calls | proved | induction over histories of API calls. |
| C11 | The extension-field operations form a field | proved | GF(2)[x] on N; field property by Frobenius (a^(2^n) = a on a basis, left inverse of a -> a^2 + a). |
| C12 | Reduction is the remainder modulo the documented polynomial | proved | linearity of the reduction + computation on a basis. |
| C13 | inverse() is the multiplicative inverse | proved | extended-Euclid invariant; termination by degree. |
| C14 | The lift from bytes is an injective ring homomorphism | proved | linearity + basis; injectivity by trivial kernel. |
| C15 | Field elements survive the byte encoding | proved | little-endian digits. |
| C16 | dot_product is the sum of products | proved | induction on the vectors; the unreduced accumulation is linear. |
| C17 | Interpolation passes through its points and is unique | proved | generic field section on coefficient lists: factor theorem, Lagrange, root products, Horner. |
| C18 | Interpolation points are distinct for every parameter set | proved | points are powers of x; distinctness for any count up to the order, and for the 23 parameter sets. |
| C19 | The S-box inversion is field inversion | proved | all 256 bytes; products against carry-less product modulo the AES polynomial. |
| C20 | AES is computed correctly | proved | AES-NI-style model against FIPS-197 written independently, 128/192/256 bit. |
| C21 | Zero S-box inputs are detected exactly | proved | recorded S-box inputs are exactly those of FIPS-197, key schedule included. |
| C22 | Recorded S-box pairs are complete and multiply to one | proved | pairs multiply to one; recording variant agrees with the plain one. |
| C23 | Shared AES evaluation recombines to the plain one | proved | additivity of the share evaluation; first party carries the constants; any number of parties. |
| C24 | Seed tree reconstruction | proved | tree as node arrays; invariants over the expansion loops for all n. |
| C25 | The reveal list does not disclose the hidden leaf | proved | no revealed node is an ancestor of the hidden leaf; its seed can be anything. |
| C26 | Reveal list size | proved | exact list size. |
| C27 | Seed tree construction is memory safe | partial | refuted (F4). Partial: exact safe range; the parameter sets lie in it. |
| C28 | Four-way and scalar hashing agree | proved | four-way functions of tree, commitment and tapes equal four scalar calls. |
| C29 | Hashing is independent of how input is split | partial | refuted (F12). Partial: calls below 2^32-200 bytes, any number; C29_lengths gives the outcome for every length. |
| C30 | Squeezing is independent of how output is split | partial | refuted (F12). Partial as C29. |
| C31 | The four-way sponge equals four scalar sponges | proved | lane-wise, whatever the outcome. |
| C32 | Opened-party challenges are in range and well defined | proved | rejection sampling, garbage as a parameter; range and exact distribution positions. |
| C33 | Evaluation challenges avoid the evaluation points of witness data | proved | rejection sampling; result avoids the points. |
| C34 | Random tape segments are disjoint and in bounds | proved | the values read from a tape are a bijection of the tape. |
| C35 | Per-party storage slots never overlap | proved | index arithmetic of RepContainer, any dimensions. |
| C36 | Parameter table is internally consistent | proved | the 23 entries. |
| C37 | A parameter set identifies itself | partial | refuted (F1). Partial: all other parameter sets. |
| C38 | Signing is deterministic | proved | determinism over histories and garbage; the salt. |
| C39 | A signature is bound to its message and public key | proved | injective encodings; conclusion is an explicit hash collision. |
| C40 | A verifying signature cannot be altered | partial | refuted (F2). Partial: any other alteration gives a collision. |
| C41 | Acceptance implies the checked relations | proved | acceptance implies the relations of SigSpec, which do not mention the code of verify. |
| C42 | Verify throws exactly on an opened-index mismatch | proved | every outcome of verify on every well-shaped signature. |
| C43 | Opened values do not determine the key | proved | for every witness and every disclosed view there is exactly one hidden tape: perfect masking. |
| C44 | Key material comes from the random source | partial | refuted (F8). Partial: exact origin of every key byte. |
| C45 | Output shares always recombine to the public ciphertext in verification | proved | XOR of the verifier's output shares is the public ciphertext. |
| C46 | Sharing corrections are exact | proved | corrections are exact for arbitrary tapes. |
| C47 | Distinct hash uses have distinct inputs | partial | refuted (F10). Injectivity per kind, exact table of colliding kinds. |
| C48 | ceil_log2 is exact | proved | both variants of clz, all 32-bit arguments. |
| C49 | Hashing is SHAKE128/SHAKE256 of FIPS 202 | proved | permutation of opt64 lane-wise = KECCAK-f[1600] on bits of FIPS 202; sponge = SHAKE. |
| C50 | The portable Keccak code computes SHAKE from its memory accesses up | proved | opt64 down to 64-bit memory accesses: simulation of the byte-wise operations. |
| C51 | The assembly Keccak built by default computes SHAKE and respects its caller | proved | interpreter for the assembly; symbolic execution of each function, loop invariants for byte, lane and block loops; simulation. |
| C52 | The four-way vector Keccak built by default computes SHAKE of each input | proved | lane-wise relation between the vector rounds and the scalar ones; interleaved layout; simulation; placement as a parameter. |
| C53 | All builds hash alike and accept each other's signatures | proved | combination of C49-C52 with the oracle interface of the protocol model. |
| C54 | Signatures cannot be made from public data alone | partial | false as stated (F16).  Forge writes the forger with the model functions of the code; ForgeAes shows that S-box outputs exist with which the share evaluation ends in any ciphertext; ForgeRun follows sign and verify as for C01; C54_no_key is a public key without a secret key. |
| C55 | Two answers to the last challenge give away a secret key | proved | ExtractSpec says what a wrong pair, bad coefficients and a bad point are; ExtractPoly: if all pairs checked are consistent and no event happened all pairs are right; ExtractFacts: equal h_1 and h_3 and no collision force equal coefficients, points and opened values; ExtractApi reads this off two accepting runs of banquet_verify, and counts the bad coefficients and points by root counting. |
| C56 | Calls made by several threads answer as if made alone | partial | false as stated (F17).  ThreadModel: calls as programs over the static members, init_extension_field access by access, arbitrary schedules.  Partial: same field, atomic accesses; invariant: what a thread has written stays as its field prescribes.  Threads that neither sign nor verify only read, hence no race (ThreadRead). |
| C57 | The random source fills the buffer or says so | partial | false as stated (F18).  RandModel: rand_bytes over an oracle that answers the i-th system call; RandSpec: `delivered`, what the read calls stored.  getrandom variant proved in full; /dev/urandom variant by induction on fuel, partial because a read that returns 0 is repeated for ever; key generation over it equals the model used for C44. |
| C58 | Parameters outside the table work like those in it | partial | false as stated (F4, F23).  FreeSpec: `proper` parameters.  The proofs of C01-C06 were made for [inst_ok], of which `proper` with a number of parties at most 15 below a power of two is an instance; for all other numbers of parties signing overruns a buffer.  Verification of arbitrary signatures needs [inst_any] only: for every number of parties from 2 to 65535 no undefined behaviour, acceptance exactly by the relations of SigSpec and AnySpec, and the exact reasons for the other outcomes (FreeSafe, with the general lemmas of VerifyTree, VerifyFacts and VerifyOutcome); the entries it ignores (F23, Filler*). |
| C59 | Different signing calls do not share randomness | proved | the hash input of the deterministic randomness is injective in (parameter set, key, public key, message) for keys of the prescribed lengths, because the ids of the table are distinct and all fields but the last have fixed length; with C38 equal salts mean equal calls or a collision. |
| C60 | The table entries signing reads do not depend on the secret key | partial | false as stated (F19).  LeakModel: banquet_sign with a log of the entries of the lifting table it reads (LeakFacts: erasing the log gives the model of banquet_sign back); LeakSpec: how an observer computes the key from the log, with the AES of the standard only; LeakAes, LeakApi: the log of every signing call contains the S-box inputs, resp. all their shares in each repetition, and the inputs in the first two rounds determine the key.  Proved: the number of lookups depends on the parameter set only. |
| C61 | Signing with a wrong key pair is safe and useless | partial | false as stated for keys with a zero S-box input (F20): ZeroKey proves that every call then writes out of bounds.  For all others BanquetRun is proved for any ciphertext in the pair; WrongKey compares what the signer hashed with what verification hashes: they are the transcripts of the right and of the wrong public key, which differ in the output broadcasts. |
| C62 | Challenges are unbiased | proved | Unbias counts, by induction on the number of candidates and the number still to draw, the strings whose first T acceptable candidates are a given list: the number depends on neither the list nor its order when every value has equally many windows.  UnbiasApi computes the windows per value and shows that the three expansions read those candidates. |
| C63 | Generated key pairs are unbiased | proved | UnbiasKey: key generation returns the first acceptable window of the random bytes, so the count of Unbias (C62) applies with one draw. |
| C64 | Assertions fail only for misuse | proved | DebugModel repeats the functions that contain assertions or call such functions, with a further outcome for a failed one.  DebugFacts compares them with the release model step by step: the tree assertions follow from the shape of the tree, those of the cipher from the sizes, the check of the output broadcasts from the correctness of the MPC evaluation (C23, C46). |
| C65 | The benchmark programs run what their arguments say, and it verifies | partial | ToolModel: strtol, getopt_long with the options used (both orders of operands), the parsers and the two programs, without the times.  Parsing is proved for all numerals and all spellings of the option; the loop by induction over the iterations from C01, C05, C06 and C58.  Partial: bench_free, and words that are no numerals (F22). |
| C66 | A call that is cut off does no harm to later calls | proved | CutModel: a call cut off is the prefix of its accesses to the static members (programs of C56).  Sign and verify write every member before they read it, so what a prefix left is overwritten; after the initialisation a call only reads, so a later cut leaves the state of a call that returned. |
| C67 | The hash library computes the FIPS 202 functions of bit strings | partial | false as stated for updates of 2^32 - 200 bytes and more (F12) and out-of-order calls (F24).  BitHashModel on the sponge of SpongeModel; BitHashSpec: sponge function on bit strings, with the suffix bits and pad10*1; the answers to any later calls.  Invariant: whole bytes absorbed and a suffix whose bits follow them; joining the last bits and the suffix by exhaustion of the two bytes (65025 pairs per number of bits at most, by the kernel), the padding by arithmetic.  Link to KeccakSpec.sponge for the permutation of keccak/opt64. |
| C68 | The one-shot sponge function agrees with the incremental one | proved | the same invariant at the end of the one-shot absorbing loop; its own output loop by induction. |
| C69 | The four-way hash library is four scalar ones | proved | lock-step lemmas of Sponge4Facts for each call, induction over the calls. |
| C70 | The bytes of a serialized signature | proved | WireSpec is a table of offsets (`wire I sig ser`), independent of the encoder; both directions: the encoder of Serialize fills the table, and a string that fits the table is that encoding.  Deserializing through C07 and the closed parties of C42. |
| C71 | The signature as a function of the key, the public key and the message | proved | HonestSpec is the scheme as relations (`prescribed`): one line per quantity, seed tree by child/parent equations, polynomials by their values, evaluation points as the allowed candidates in order.  Uniqueness: each relation determines its value (Lagrange uniqueness for the polynomials).  Existence: `full_run` of BanquetRun gives every value the signer computed, and these satisfy the relations.  The converse combines the two: a prescribed signature excludes a signer that runs out of candidates, and the signature the signer then returns is the same by uniqueness. |
| C72 | Parameters that are refused | proved | case analysis of the dispatch; for verify by inversion of a run that returns a result. |
| C73 | Which part of a signature object counts | proved | congruence of every step of verify and serialize under `same_read` (no assumption on the parameters); the lengths by inversion of a run that returns a result.  `C73_extra_accepted` exhibits two objects (finding F25). |
| C74 | A signature belongs to one parameter set | proved | length of the string hashed for h_3 as a formula of the parameters; the formula differs for all pairs in the table with the same digest size (computed); acceptance as in C41 makes both strings hash to h_3.  Sets with different digest sizes share no h_3; for a byte string read under sets of two levels nothing is claimed (the two digests are outputs of different lengths or functions). |
| C75 | The outcome of a call is determined by its arguments | proved | a relation on outcomes (the first ran out of fuel, or both are equal) is carried through the bodies by one lemma about bind; the sampling loops satisfy it by induction on the fuel; the party challenges do not depend on the indeterminate byte (for 0 parties the loop never ends).  C38 has the signing case for returned signatures. |
| C76 | Values of different parties and repetitions are kept apart in memory | partial | `m_sign`/`m_verify` model every read and write of the vectors; a simulation (`sim`) carries, through each loop over parties and repetitions, that slot (rep, party) of each vector is the entry of the list model (`holds`); then C58 (no undefined behaviour of the list model) gives equality.  The last sentence is refuted (`C76_spill`, `C76_spill_accepted_refuted`, finding F26). |
| C77 | Drawing challenges and keys rarely takes long | proved | the numbers of sequences satisfy the recurrence of rejection sampling, and so does the closed formula (Pascal's rule); union bound by induction.  The acceptable candidates are counted through the fibres of C62; the API through the drawing lemmas of C62 and, for signing, by comparing two runs of the body with different fuel. |
| C78 | Few challenges let a signer through that does not know the key | proved | bad values per repetition are few by C55 (a coordinate of bad coefficients is determined by the others, a polynomial of degree 2 m2 has at most 2 m2 roots); tuples with k bad places are counted by induction on the number of places (Pascal's rule), adaptive provers by summing products of weights phase by phase.  The finitely many reasons a given list of challenges is bad are collected first, so that no decidability of badness is assumed.  Converse: interpolation gives corrections with chosen roots.  What is not claimed: the code draws the point before all corrections of P are fixed (C54), so the share for points is not that of the code; and the random-oracle argument that turns shares into a probability over hash functions is outside the model. |
| C79 | One accepted signature and the seeds committed to in it give the key | proved | the values of the opened parties in a transcript are functions of their seeds, so equal seeds give equal values; seeds with equal commitments are equal or collide.  If the closed party does not deviate either, the sums of C55 apply to the evaluation, and the argument of C55 gives the key, a bad coefficient or a bad point, without a second signature.  Honest signatures: the prescribed values of C71 are an evaluation and satisfy the relations of verification.  Not claimed: that the seed of the closed party is known; in the usual argument it is read off the queries to the hash function, which are not in this statement. |
| C80 | The functions on a Keccak state, used in any order, act on an array of 200 bytes | partial | per function: loops of the assembly by induction on the number of words and bytes left, over the machine of X86Model, related to the 200 bytes through the lane order (`rel`); C code by induction over lanes; rounds by the round lemmas of C50/C51.  Then by induction on the sequence of calls. |
| C81 | The hash library computes the sponge of FIPS 202 on either implementation of the permutation | partial | false for a rate of 1600 with opt64 (F30).  SnpHash: the interface of BitHashModel over the functions of an implementation (SnpSponge), run on the assembly of Avx2Code and on Opt64Model.  Simulation of BitHashModel, call by call, for every implementation that acts on its memory as the byte-wise operations do on 200 bytes; the absorbing loops for 1 to 25 lanes by C80; then C67, C68. |
| C82 | The four-way hash library computes four independent sponges of FIPS 202 on either implementation | partial | false for a rate of 1600 with opt64 (F30).  SnpHash4: the four-way interface over the functions of a PlSnP implementation (SnpSponge), run on Simd256Model and on the four-way part of Opt64Model.  Simulation as for C81, each lane by C69, then C67. |
| C83 | The functions on four Keccak states act as on four arrays of 200 bytes, in any order of calls | partial | false for all 25 lanes with opt64 (F28).  FourModel: the functions of both files, with the unpack, permute and shuffle intrinsics.  Loops by an invariant on the number of lanes done, for steps of one and of four lanes alike (`lanes_all_inv`); the memory related to four arrays by `lay4` of C52; rounds by the round lemmas of C52.  Then by induction on the sequence of calls. |
| C84 | The absorbing loops on four Keccak states absorb exactly the blocks the data holds for all four, in any order with other calls | partial | false without the bounds on the offsets (F32).  Fast4Model: both loops, with the block of 21 lanes in registers.  The loop by induction on the number of blocks, for any relation to four arrays (`loop_ok`): memory by `lay4`, registers by `regs`.  Then by induction on the sequence of calls, with the steps of C83. |
| C85 | rand_bytes over /dev/urandom leaves no file descriptor open and uses none that is not | proved | TraceModel: the variant with /dev/urandom, each system call recorded, the record kept also while the call is running.  An invariant on the open descriptors, by induction on both loops; the shape of the record for close-on-exec. |
| C86 | The benchmark timer can always be set up, and its descriptor is closed once | proved | TimerModel: the three timers and the system calls they make.  By cases on the machine; the invariant of C85 on the open descriptors. |
| C87 | Kravatte compression, four blocks at a time, is Farfalle's compression | partial | false for less than four blocks (F33).  KravModel: the loop, with the vector instructions of the rolling function word by word.  The rolling step on symbolic words (`Rollc_ok`), one turn by the four projections of the registers and `four6` of C83 (`turn_ok`), then induction on the number of turns. |

No listed property was left out as inexpressible.

## 6. Files (rocq/theories, in build order)

| file | content |
|---|---|
| Prelude.v | Outcomes of running C++ code, checked accesses and byte-string helpers |
| Clmul.v | GF(2)[x] represented by binary naturals |
| FieldModel.v | Model of the field arithmetic of /repo/field.cpp (the GF2E class and its helpers) |
| FieldProofs.v | Proofs about the field arithmetic of FieldModel |
| FieldInv.v | GF2E::inverse computes multiplicative inverses |
| Gf8.v | GF(2^8) with the AES polynomial |
| PolyModel.v | Model of the polynomial / vector functions of /repo/field.cpp:328-468 |
| PolyProofs.v | Correctness of the polynomial functions over any field in which x + x = 0 |
| FieldSig.v | The extension fields as types with Leibniz equality, and transfer of the polynomial functions between that type and the uint64_t representation |
| Points.v | The evaluation points produced by get_first_n_field_elements are powers of x |
| Instances.v | Model of /repo/banquet_instances.{h,cpp} (the parameter table) and of ceil_log2, macros.h |
| FreeSpec.v | Parameters a caller may choose freely (as /repo/tools/bench_free.cpp lets them) |
| FieldSpec.v | Specification vocabulary for the field properties, independent of the model |
| FieldApi.v | The field facts restated for whatever init_extension_field returns |
| FieldExtra.v | Lemmas used by the property files PropField.v and PropParams.v |
| PropField.v | Property theorems about the field arithmetic (C11 - C19) |
| PropParams.v | Property theorems about the parameter table (C36, C37) and ceil_log2 (C48) |
| AesSpec.v | FIPS-197 (AES), written from the standard and independently of aes.cpp |
| AesModel.v | Model of /repo/aes.cpp |
| AesBase.v | Lemmas about the instruction-level primitives of AesModel |
| AesKs.v | The key schedules and rounds of AesModel agree with FIPS-197 |
| AesPlain.v | The plain and the recording evaluation of AesModel in terms of FIPS-197 |
| AesApi.v | The plain AES functions of the API in terms of FIPS-197 |
| AesMpc.v | The share evaluation of AesModel |
| AesLin.v | The share evaluation of AesMpc is additive, and evaluates AES on consistent S-box outputs |
| AesHonest.v | The first party's evaluation with S-box outputs that are the inverses of the S-box inputs is AES |
| AesShares.v | All parties of the share evaluation together |
| PropAes.v | Property theorems about AES (C20-C23) |
| PropMpc.v | Property theorems about the evaluation of AES on additive shares (C23) |
| HashModel.v | The hash interface of /repo/kdf_shake.h as used by the rest of the code |
| TreeModel.v | Model of /repo/tree.cpp, tree.h |
| TreeSpec.v | Specification of the seed tree, independent of the layout code in tree.cpp |
| TreeProofs.v | Proofs about the seed tree |
| TreeExpand.v | What the expansion loops of the seed tree constructors do |
| TreeApi.v | The seed tree constructors, reveal_all_but and get_leaf |
| TreeRev.v | The reveal list and the constructor that rebuilds a tree from it |
| PropTree.v | Property theorems about the seed tree (C24-C27) |
| ContainerModel.v | RepContainer (types.h:46-77) |
| BanquetModel.v | Model of /repo/banquet.cpp and /repo/tape.cpp |
| ListSum.v | Lists indexed by [seq 0 n], and exclusive-or sums over such indices |
| FieldLin.v | Linear algebra over the extension fields |
| BanquetHash.v | The hash-based parts of signing and verification |
| BanquetPure.v | One repetition |
| BanquetVerify.v | The steps of verification on an arbitrary well-shaped proof of one repetition |
| BanquetSign.v | The steps of signing on one repetition, and the relations between the values the parties hold |
| BanquetPoly.v | The polynomials of one repetition of signing |
| BanquetCtx.v | The inputs of the three commitment hashes, and what verification computes from a well-shaped signature |
| BanquetRun.v | Signing with a valid key |
| Serialize.v | Serialization and deserialization of signatures |
| BanquetApi.v | From the phases to the API: regular instances, and so the built-in ones, satisfy [inst_ok], keys returned by keygen satisfy [key_ok], the challenges' sampling loops, and the outcome of sign followed by verify |
| History.v | Histories of API calls |
| SignFacts.v | The theorems about keygen, sign and verify at the level of the API |
| PropSign.v | Property theorems about key generation, signing and verification (C01, C02, C03, C05, C10, C38) |
| SerialFacts.v | Serialization at the level of the API, including the dependence on the static field state |
| WireSpec.v | The layout of a serialized signature, written down as a table of offsets |
| WireFacts.v | The code's serialization has the layout of WireSpec.v |
| PropWire.v | Property theorems about the bytes of a serialized signature (C70) |
| PropSerial.v | Property theorems about banquet_serialize_signature and banquet_deserialize_signature (C04, C06, C07, C08, C09) |
| ChallengeFacts.v | What the challenge expansions compute |
| TapeFacts.v | The layout of a party's random tape |
| HashFacts.v | Restatements of earlier lemmas for PropHash |
| PropHash.v | Property theorems about hashing |
| KeygenFacts.v | Where the bytes of a generated key come from |
| KeygenBad.v | The random sources and runs that refute C44 as stated |
| PropKeygen.v | Property theorems about the origin of key material (C44) |
| ShareFacts.v | The corrections of the sharings made by the signer are exact |
| PropShares.v | Property theorems about the signer's sharings (C46) |
| SigSpec.v | What a signature determines, described by relations instead of by the code of banquet_verify |
| AnySpec.v | Specification of verification for any number of parties (C58) |
| VerifyTree.v | The seeds that verification rebuilds, in terms of the relations of SigSpec |
| VerifyFacts.v | Verification computes the relations of SigSpec |
| VerifyOutcome.v | The outcome of verification on any well-shaped signature, in terms of the relations of SigSpec |
| AcceptFacts.v | The statements of PropVerify about acceptance, outcomes and binding (C39, C41, C42, C45) |
| AlterFacts.v | What two accepted signatures with the same challenges have in common (C40) |
| VerifyCases.v | Concrete runs of banquet_verify, for PropVerify |
| PropVerify.v | Property theorems about what banquet_verify accepts (C39, C40, C41, C42, C45) |
| SpongeModel.v | Model of the hash functions behind kdf_shake.h |
| SpongeSpec.v | What a hash of a byte string is |
| SpongeFacts.v | Proofs about SpongeModel |
| SpongeApi.v | The hash interface on top of the sponge |
| Sponge4Facts.v | The four-way sponge is four scalar sponges in lock step, whatever happens (also when it overruns or never ends) |
| SpongeCases.v | What PropSponge states, from SpongeApi and Sponge4Facts |
| PropSponge.v | C29-C31 |
| MaskSpec.v | One repetition of signing as a function of the parties' tapes and of the challenges, and what it discloses |
| MaskFacts.v | The disclosed values of a repetition |
| PropMask.v | Property theorems about what a signature discloses of the key (C43) |
| DomainSpec.v | The uses of the hash function and what is hashed in each |
| DomainFacts.v | Which uses of the hash function can have the same input |
| PropDomain.v | Property theorems about the inputs of the hash function (C47) |
| KeccakSpec.v | FIPS 202 (SHA-3 standard), on bits |
| KeccakModel.v | Model of keccak/opt64 |
| KeccakFacts.v | The permutation of keccak/opt64 is KECCAK-f[1600] of FIPS 202 |
| KeccakBytes.v | From bytes to bits |
| KeccakShake.v | SHAKE of SpongeSpec with the permutation of keccak/opt64 is SHAKE128 and SHAKE256 of FIPS 202 |
| KeccakHash.v | Hashing through kdf_shake.h with the permutation of keccak/opt64 is SHAKE of FIPS 202 |
| PropKeccak.v | C49 |
| SnpSponge.v | The sponge and hash functions of keccak/ over the interfaces SnP and PlSnP. SpongeModel describes a state by its 200 bytes |
| SnpSim.v | An implementation of SnP that does to its representation of a state what the byte-wise operations of SpongeModel do to the 200 bytes gives the hash functions of SpongeModel |
| SnpSim4.v | The four-way version of SnpSim |
| SnpMem.v | Memory as the implementations of SnP see it |
| SnpLayout.v | States of 25 lanes kept in memory at given places |
| Opt64Model.v | Model of keccak/opt64 below the sponge |
| Opt64Facts.v | keccak/opt64 below the sponge does what the byte-wise operations of SpongeModel do |
| SnpShake.v | An implementation that simulates the byte-wise permutation computes SHAKE |
| PropSnp.v | C50 |
| X86Model.v | The instructions that keccak/avx2/KeccakP-1600-AVX2.s uses, as an interpreter |
| Avx2Code.v | keccak/avx2/KeccakP-1600-AVX2.s, translated instruction by instruction by a script (the branches of .ifdef macOS left out) |
| Avx2Round.v | One round of __KeccakF1600 (keccak/avx2) is one round of the permutation, with the lanes in the ymm registers |
| Avx2Perm.v | __KeccakF1600 and KeccakP1600_Permute_24rounds of keccak/avx2 |
| Avx2Mem.v | The memory layout of keccak/avx2 and single memory accesses of the machine |
| Avx2Facts.v | Runs of the code of keccak/avx2 |
| Avx2Calls.v | KeccakP1600_Initialize, AddByte and Permute_24rounds of keccak/avx2, from call to return |
| Avx2Add.v | KeccakP1600_AddByte and AddBytes of keccak/avx2 |
| Avx2Extract.v | KeccakP1600_ExtractBytes of keccak/avx2 |
| Avx2Block.v | One block of KeccakF1600_FastLoop_Absorb of keccak/avx2, for 17 and 21 lanes |
| Avx2Fast.v | KeccakF1600_FastLoop_Absorb of keccak/avx2, for 17 and 21 lanes |
| Avx2Model.v | The functions of keccak/avx2/KeccakP-1600-AVX2.s as SnP operations |
| Avx2Sim.v | keccak/avx2's KeccakP-1600 does to its representation of a state what the byte-wise operations do to the 200 bytes |
| PropAvx2.v | C51 |
| Simd256Model.v | Model of keccak/avx2/KeccakP-1600-times4-SIMD256.c |
| Simd256Round.v | The rounds of KeccakP-1600-times4-SIMD256.c do to each of the four words what those of keccak/opt64 do to one |
| Simd256Facts.v | The four-way functions of KeccakP-1600-times4-SIMD256.c do to four interleaved states what the byte-wise ones do |
| PropSimd256.v | C52 |
| BuildSpec.v | One hash oracle for all builds |
| BuildFacts.v | Every build's hash functions answer as FIPS202 |
| PropBuilds.v | C53 |
| Forge.v | A procedure that makes signatures from public data alone |
| ForgeAes.v | The forger's S-box outputs |
| ForgeRun.v | The forger of Forge |
| ForgeApi.v | The forger of Forge at the level of the API: when it returns a signature and that banquet_verify accepts it |
| PropForge.v | Property theorems about signatures made without a secret key (C54) |
| ExtractSpec.v | What two accepted signatures that agree on h_1 and h_3, but open different parties, determine together |
| ExtractPoly.v | The polynomial part of C55 |
| ExtractFacts.v | The proof of C55 |
| ExtractApi.v | The theorems of PropExtract in the form they are stated there, and the run used as an example |
| PropExtract.v | Property theorems about two signatures that answer the last challenge differently (C55) |
| ThreadModel.v | Several threads that call the API at the same time |
| ThreadFacts.v | Facts about interleaved calls (C56) |
| ThreadApi.v | The theorems of PropThreads in the form they are stated there |
| PropThreads.v | Property theorems about calls made by several threads (C56) |
| RandModel.v | Model of /repo/randomness.c |
| RandSpec.v | Specification for C57 |
| RandFacts.v | Facts about rand_bytes (C57) |
| PropRandom.v | Property theorems about the random source (C57) |
| FreeApi.v | Key generation, signing and verification with freely chosen parameters (C58) |
| FreeVerify.v | Verification with freely chosen parameters, the number of parties being a power of two up to 256 (C58) |
| FreeSafe.v | Verification with freely chosen parameters, whatever the signature (C58) |
| FillerSpec.v | Specification for C58_unused_entries |
| FillerFacts.v | Verification does not look at the unused entries of a reveal list (C58) |
| FillerApi.v | The statements of PropFree about unused entries (C58) |
| PropFree.v | Property theorems about parameters outside the table (C58) |
| FreshFacts.v | Salts and seeds of different signing calls (C59) |
| PropFresh.v | Property theorems about the randomness of different signing calls (C59) |
| LeakModel.v | The table lookups of banquet_sign |
| LeakSpec.v | What someone who sees which table entries are read can compute (C60), written with the AES of AesSpec only |
| LeakFacts.v | The lookups of banquet_sign give the key away (C60) |
| LeakAes.v | The S-box inputs determine the key (C60), and so nearly do the cache lines they are in |
| LeakApi.v | The lookups of a signing call (C60) |
| PropLeak.v | Property theorems about what the table lookups of signing reveal (C60) |
| ZeroKey.v | Signing with a key whose cipher evaluation has a zero at the input of some S-box (C61) |
| WrongKey.v | Signing with a key pair whose halves do not belong together (C61) |
| PropWrong.v | Property theorems about signing with a key pair that key generation did not make (C61) |
| Unbias.v | Counting the byte strings from which rejection sampling draws given values (C62) |
| UnbiasApi.v | How many hash outputs lead to given challenges (C62) |
| PropUnbias.v | Property theorems about the distribution of the challenges (C62) |
| UnbiasKey.v | How many outputs of the random source lead to a given key pair (C63) |
| PropUnbiasKey.v | Property theorem about the distribution of generated key pairs (C63) |
| DebugModel.v | The program built without NDEBUG (for example with CMAKE_BUILD_TYPE=Debug) |
| DebugFacts.v | The assertions |
| PropDebug.v | Property theorems about builds with assertions (C64) |
| ToolModel.v | Model of the benchmark programs /repo/tools/bench.cpp and /repo/tools/bench_free.cpp with their argument parser /repo/tools/bench_utils.cpp (the variant for compilers other than Microsoft's) |
| ToolSpec.v | Specification for C65 |
| ToolFacts.v | The benchmark programs |
| PropTools.v | Property theorems about the benchmark programs (C65) |
| ThreadRead.v | Threads that only read the static members (C56) |
| CutModel.v | Calls that are cut off |
| CutFacts.v | Calls that follow calls which were cut off |
| PropCut.v | Property theorems about calls that are cut off (C66) |
| BitHashSpec.v | What FIPS 202 says a hash of a bit string is (sections 4, 5.1, 6 and B.1), for an arbitrary permutation f of states of 200 bytes |
| BitHashModel.v | Model of the whole interface of the hash library underneath kdf_shake.h |
| BitHashFacts.v | Facts about BitHashModel and BitHashSpec |
| BitHashApi.v | The calls of the hash library, one by one |
| BitHashRuns.v | Sequences of calls of the hash library, the one-shot function, four at a time |
| BitHashFips.v | With the permutation of keccak/opt64 the hash library computes the functions of FIPS 202 on bit strings |
| PropBits.v | C67, C68, C69 |
| HonestSpec.v | The signature of a message, described by relations instead of by the code of banquet_sign |
| HonestFacts.v | banquet_sign returns the signature that HonestSpec describes, and there is only one |
| PropHonest.v | Property theorems about the signature as a function of the key, the public key and the message (C71) |
| LooseSpec.v | The part of a signature object that verification looks at, and the lengths it depends on |
| LooseFacts.v | Which part of its arguments verification and serialization read, for C72 and C73 |
| PropLoose.v | Property theorems about parameters the library refuses (C72) and about signature objects whose vectors do not have the prescribed lengths (C73) |
| CrossFacts.v | Lemmas for PropCross |
| CrossCases.v | A byte string that banquet_verify accepts under two parameter sets, for a hash function whose output bytes are all 64 (the case of PropCross) |
| PropCross.v | Property theorems about signatures and parameter sets (C74) |
| DetermFacts.v | Two runs of the same call that both end, end in the same way |
| PropDeterm.v | Property theorems about the outcome of a call being determined by its arguments (C75) |
| MemModel.v | banquet_sign and banquet_verify with their buffers |
| MemAes.v | Lengths of what aes_N_s_shares writes, for all contents of its inputs |
| MemBase.v | Simulation of one computation by another, and the contents of flat containers |
| MemRows.v | The loops over parties write the slots of one repetition |
| MemSetup.v | The seed trees, commitments and tapes of one repetition in flat containers |
| MemPhase1.v | The shares of the key and of the S-box outputs, the recomputed AES executions and their outputs in flat containers |
| MemPhase5.v | The shares of a, b and c in flat containers |
| MemBody.v | banquet_sign and banquet_verify on flat containers end as the ones on lists do |
| MemLoose.v | Signature objects of any shape, with flat buffers |
| MemSpill.v | A commitment that is longer than its slot is written into the slots behind it (C76) |
| PropMem.v | Property theorems about the flat buffers of signing and verifying (C76) |
| LateSpec.v | How many strings of candidates do not yet contain enough acceptable ones (C77) |
| LateFacts.v | Counting the outputs after which the drawing of challenges and keys goes on (C77) |
| LateApi.v | How many hash outputs keep signing, verification and key generation drawing (C77) |
| PropLate.v | Property theorems about how long drawing goes on (C77) |
| SoundSpec.v | Challenges and provers that go without the key |
| SoundFacts.v | Counting the challenges for which a prover without a witness gets through (C78) |
| SoundApi.v | The theorems of PropSound in the form they are stated there |
| PropSound.v | Property theorems about how many challenges let a prover through that does not know the key (C78) |
| OnlineSpec.v | What the parties would have done with the seeds committed to |
| OnlineFacts.v | The proof of C79 |
| HonestOpen.v | The values of an honest signature are its transcript, and they satisfy the relations that verification checks |
| OnlineApi.v | The theorems of PropOnline in the form they are stated there |
| OnlineCases.v | The runs used as examples in PropOnline |
| PropOnline.v | Property theorems about a signature accepted by verify and the seeds committed to in it (C79) |
| StateSpec.v | Keccak states as arrays of 200 bytes, and what the functions on them are meant to do |
| PutFacts.v | Overwriting bytes |
| Opt64More.v | Model of keccak/opt64, continued |
| Opt64MoreFacts.v | keccak/opt64 |
| Avx2Over.v | KeccakP1600_OverwriteBytes of keccak/avx2 |
| Avx2Zero.v | KeccakP1600_OverwriteWithZeroes of keccak/avx2 |
| Avx2XAdd.v | KeccakP1600_ExtractAndAddBytes of keccak/avx2 |
| Avx2Rounds.v | KeccakP1600_Permute_12rounds and KeccakP1600_Permute_Nrounds of keccak/avx2 |
| Avx2Fast12.v | KeccakP1600_12rounds_FastLoop_Absorb of keccak/avx2, for 17 and 21 lanes |
| Avx2FastAny.v | The fast absorbing loops of keccak/avx2 for every number of lanes, 24 and 12 rounds |
| StateModel.v | The functions on Keccak states of the two implementations, as a caller sees them |
| StateFacts.v | The calls on a state do what StateSpec says |
| PropState.v | C80 |
| HashImplSpec.v | Specification for the hash library over its two implementations |
| SnpHash.v | The whole interface of keccak/KeccakHash.{h,c} and the one-shot function of KeccakSponge.inc, as in BitHashModel, but over an implementation of SnP (SnpSponge) |
| SnpHashSim.v | An implementation of SnP whose absorbing loop is right for every number of lanes gives the hash interface of BitHashModel, for every rate of at most B bytes, where B bounds what can be extracted from offset 0 in one call |
| SnpHashFacts.v | The hash library over the two implementations |
| PropImpl.v | C81 |
| SnpHash4.v | The whole interface of keccak/KeccakHashtimes4.{h,c}, as in BitHashModel, but over an implementation of PlSnP (SnpSponge) |
| SnpHash4Sim.v | An implementation of PlSnP gives the four-way hash interface of BitHashModel for every rate of at most B bytes, where B bounds what can be extracted from offset 0 in one call |
| SnpHash4Facts.v | The four-way hash library over its two implementations |
| PropImpl4.v | C82 |
| FourSpec.v | Four Keccak states as four arrays of 200 bytes, and what the functions on them are meant to do |
| FourModel.v | Model of the four-way functions that banquet does not use |
| FourLay.v | Writing bytes of one of four interleaved states, and of all of them |
| FourAll.v | The functions on lanes of all four states, and the permutations |
| FourPerm.v | The permutations of four states with 12, 6 and 4 rounds |
| FourOpt.v | The functions on four states of PlSnP-Fallback.inc |
| FourSimd.v | The functions on four states of KeccakP-1600-times4-SIMD256.c |
| PropFour.v | C83 |
| Fast4Spec.v | Absorbing blocks of data into four Keccak states at once |
| Fast4Model.v | Model of the absorbing loops of keccak/avx2/KeccakP-1600-times4-SIMD256.c |
| Fast4Facts.v | The absorbing loops on four states |
| Fast4Past.v | The absorbing loops on four states with offsets for which the number of bytes left does not come down to the end of the data |
| PropFast4.v | C84 |
| TraceSpec.v | Specification for C85 |
| TraceModel.v | Model of rand_bytes with /dev/urandom, /repo/randomness.c:69-108, once more (see RandModel), with every system call it makes |
| TraceFacts.v | The system calls of rand_bytes with /dev/urandom |
| PropTrace.v | C85 |
| TimerModel.v | Model of /repo/tools/bench_timing.cpp |
| PropTimer.v | C86 |
| KravSpec.v | Compression of the Farfalle construction over Keccak-p[1600, 6] (Bertoni, Daemen, Hoffert, Peeters, Van Assche, Van Keer, "Farfalle |
| KravModel.v | Model of KeccakP1600times4_KravatteCompress of keccak/avx2/KeccakP-1600-times4-SIMD256.c |
| KravFacts.v | Compression of four blocks at a time |
| KravLoop.v | The loop over the blocks |
| PropKrav.v | C87 |
| KnownAnswers.v | The literal answers of the repository's own tests (tests/aes_test.cpp, field_test.cpp, util_test.cpp), computed by the model |

## 7. Checking the theorems against wrong programs

seeded/LOG.jsonl records edits of the model in a scratch copy that imitate realistic bugs, the claim each breaks, the theorems
that then fail to build and the theorems that were tightened because they still built.
