{"id": "C01", "title": "Honest signatures verify", "statement": "For every built-in parameter set, every key pair that banquet_keygen can return and every message, if banquet_sign returns a signature then banquet_verify on the same public key, signature and message returns true (it neither returns false nor throws nor reads out of bounds).", "quantifier": "all 23 built-in parameter sets and all others with a supported cipher and field, m1*m2 S-boxes, 1 to 32 seed bytes, at least one repetition and 2^k <= 256 parties, all keys/plaintexts accepted by keygen, all messages of any length, all behaviours of the hash function", "why_tests_cant": "Tests sign one fixed message with a handful of keys; key space is 2^128..2^256 and the statement must hold for every hash output.", "anchors": ["banquet.cpp: banquet_sign, banquet_verify", "tree.cpp: SeedTree", "aes.cpp: aes_*_s_shares", "field.cpp"]}
{"id": "C02", "title": "Signing never hits the internal sanity-check exception or an out-of-bounds access", "statement": "For every built-in parameter set and every key pair keygen can return, banquet_sign does not throw 'final sanity check is wrong', does not throw any size-mismatch exception and performs no out-of-bounds vector access; the only way not to return is non-termination of challenge rejection sampling.", "quantifier": "all parameter sets (built in or of the same kind, as in C01), all keygen-valid keys, all messages, all hash outputs (including every value of the challenges r, R)", "why_tests_cant": "The exception depends on challenge values derived from hashes; a polynomial identity must hold at every point of a 2^32..2^48-element field.", "anchors": ["banquet.cpp: banquet_sign lines 290-775", "field.cpp: precompute_lagrange_polynomials, eval, dot_product"]}
{"id": "C03", "title": "Key generation yields a consistent key pair", "statement": "Whenever banquet_keygen returns (sk, pk): sk has key_size bytes, pk is plaintext||ciphertext with the ciphertext equal to AES(sk, plaintext) block by block, and no S-box of that evaluation (key schedule included) has input 0.", "quantifier": "all parameter sets (built in or of the same kind, as in C01), all sequences of random bytes", "why_tests_cant": "Random testing sees only a vanishing fraction of keys, and zero S-box inputs occur for specific keys only.", "anchors": ["banquet.cpp: banquet_keygen", "aes.cpp: aes_128, aes_192, aes_256"]}
{"id": "C04", "title": "Serialization round trip", "statement": "With the field initialised for the instance, deserialize(serialize(sig)) returns sig, for every signature whose components have the sizes the instance prescribes and whose opened-party indices match its h_3.", "quantifier": "all parameter sets (built in or of the same kind, as in C01), all well-shaped signatures", "why_tests_cant": "Signatures have tens of thousands of bytes; tests check one.", "anchors": ["banquet.cpp: banquet_serialize_signature, banquet_deserialize_signature"]}
{"id": "C05", "title": "A signature survives transport as bytes", "statement": "For every parameter set, keygen-valid key and message: sign, then serialize, then deserialize, then verify (in one process, with no intervening change of field) returns true.", "quantifier": "all parameter sets (built in or of the same kind, as in C01), keys, messages, hash behaviours", "why_tests_cant": "End-to-end over unbounded inputs.", "anchors": ["banquet.cpp: banquet_sign, banquet_serialize_signature, banquet_deserialize_signature, banquet_verify"]}
{"id": "C06", "title": "Serialized length depends only on the parameter set", "statement": "The byte length of a serialized signature is a fixed formula of the parameter set (32 + 2*digest + T*(ceil_log2(N)*seed + digest + key + sboxes + (m2+1+1+2*m1)*lambda)), independent of key, message and challenges.", "quantifier": "all parameter sets (built in or of the same kind, as in C01), all signatures produced by sign or well-shaped", "why_tests_cant": "Needs all keys, messages and challenge outcomes.", "anchors": ["banquet.cpp: banquet_serialize_signature"]}
{"id": "C07", "title": "Serialized form is canonical", "statement": "With the field initialised for the instance, re-serializing the result of deserializing a byte string of exactly the prescribed length gives back the same byte string; hence two different byte strings of that length never denote the same signature.", "quantifier": "all parameter sets (built in or of the same kind, as in C01), all byte strings of the prescribed length", "why_tests_cant": "All byte strings of >10 kB.", "anchors": ["banquet.cpp: banquet_serialize_signature, banquet_deserialize_signature", "field.cpp: GF2E::to_bytes, from_bytes"]}
{"id": "C08", "title": "Deserialization rejects byte strings of the wrong length", "statement": "banquet_deserialize_signature either returns a signature whose serialization is the input or fails cleanly; in particular trailing bytes are not silently accepted and short inputs do not cause out-of-bounds reads (release build).", "quantifier": "all byte strings of any length", "why_tests_cant": "Needs all lengths and contents; out-of-bounds reads may pass silently in a test.", "anchors": ["banquet.cpp: banquet_deserialize_signature (assert on line 1317 is compiled out in Release)"]}
{"id": "C09", "title": "Deserialization does not depend on earlier calls", "statement": "banquet_deserialize_signature and banquet_serialize_signature return the same result whatever sign/verify calls the process made before (in particular in a fresh process, or after using another parameter set).", "quantifier": "all histories of API calls on all parameter sets (built in or of the same kind, as in C01)", "why_tests_cant": "Tests always sign first in the same process with the same parameter set, so the static field state is always already right.", "anchors": ["field.cpp: GF2E::byte_size, reduce, modulus (static)", "banquet.cpp: banquet_deserialize_signature"]}
{"id": "C10", "title": "Sign and verify do not depend on earlier calls", "statement": "banquet_sign and banquet_verify return the same result after any history of API calls, on any mixture of parameter sets, as in a fresh process.", "quantifier": "all histories of API calls", "why_tests_cant": "All interleavings of parameter sets.", "anchors": ["field.cpp: GF2E::init_extension_field", "banquet.cpp: banquet_sign, banquet_verify"]}
{"id": "C11", "title": "The extension-field operations form a field", "statement": "For lambda in {2,4,5,6} the values below 2^(8*lambda) with operator+ and operator* form a commutative field: associativity, commutativity, distributivity, identities and no zero divisors; results stay below 2^(8*lambda).", "quantifier": "all triples of field elements, 4 fields of size up to 2^48", "why_tests_cant": "2^144 triples; the unit tests compare random products with NTL only.", "anchors": ["field.cpp: operator+, operator*, reduce_GF2_16/32/40/48, clmul"]}
{"id": "C12", "title": "Reduction is the remainder modulo the documented polynomial", "statement": "Each reduce_GF2_n maps every product of two field elements (and every xor-sum of such products) to the unique representative of degree < n congruent to it modulo the documented modulus.", "quantifier": "all carry-less products (up to 96-bit values)", "why_tests_cant": "2^64..2^96 inputs.", "anchors": ["field.cpp: reduce_GF2_16, reduce_GF2_32, reduce_GF2_40, reduce_GF2_48, init_extension_field"]}
{"id": "C13", "title": "inverse() is the multiplicative inverse", "statement": "For every nonzero field element a, a * a.inverse() = 1; inverse() of 0 is 0; the loop always terminates and the result does not depend on the unspecified value of __builtin_clzl(0).", "quantifier": "all field elements of all four fields, all values clzl(0) may take", "why_tests_cant": "2^48 elements; undefined builtin result differs between machines.", "anchors": ["field.cpp: mod_inverse, GF2_euclidean_div_quotient"]}
{"id": "C14", "title": "The lift from bytes is an injective ring homomorphism", "statement": "lift_uint8_t maps 0 to 0, 1 to 1, xor to +, the AES byte product (mod x^8+x^4+x^3+x+1) to *, and is injective, for every lambda.", "quantifier": "all pairs of bytes, all four fields", "why_tests_cant": "The homomorphism must hold for all 65536 pairs in each field; lambda=2 is never exercised by the tests.", "anchors": ["field.cpp: init_lifting_lut, lift_uint8_t, init_extension_field"]}
{"id": "C15", "title": "Field elements survive the byte encoding", "statement": "For every element below 2^(8*lambda), from_bytes(to_bytes(x)) = x and to_bytes has lambda bytes; for every lambda-byte string b, to_bytes(from_bytes(b)) = b and from_bytes(b) < 2^(8*lambda).", "quantifier": "all field elements, all byte strings of lambda bytes", "why_tests_cant": "2^48 values.", "anchors": ["field.cpp: GF2E::to_bytes, GF2E::from_bytes"]}
{"id": "C16", "title": "dot_product is the sum of products", "statement": "dot_product(a,b) with its single lazy reduction equals the field sum of a[i]*b[i] for all equal-length vectors, and throws exactly when the lengths differ.", "quantifier": "all vectors of all lengths", "why_tests_cant": "Unbounded lengths and 2^48-size field.", "anchors": ["field.cpp: dot_product"]}
{"id": "C17", "title": "Interpolation passes through its points and is unique", "statement": "For distinct x-values, interpolate_with_precomputation(precompute_lagrange_polynomials(x), y) evaluates to y[k] at x[k] for every k and is the only polynomial of that length doing so; build_from_roots(r) is the monic polynomial vanishing exactly on r; eval is Horner evaluation; the product of polynomials evaluates to the product.", "quantifier": "all numbers of points, all distinct x, all y, all evaluation points", "why_tests_cant": "Unbounded number of points over a 2^48-element field.", "anchors": ["field.cpp: precompute_lagrange_polynomials, interpolate_with_precomputation, build_from_roots, eval, operator*"]}
{"id": "C18", "title": "Interpolation points are distinct for every parameter set", "statement": "get_first_n_field_elements(2*m2+1) returns pairwise distinct nonzero elements for every built-in parameter set, so every Lagrange denominator is invertible.", "quantifier": "all 23 parameter sets, all pairs of indices", "why_tests_cant": "Depends on multiplicative order of x in each field; no test checks it.", "anchors": ["field.cpp: get_first_n_field_elements, precompute_lagrange_polynomials"]}
{"id": "C19", "title": "The S-box inversion is field inversion", "statement": "The byte function used for S-boxes returns the multiplicative inverse in GF(2^8) mod x^8+x^4+x^3+x+1 for every nonzero byte and 0 for 0.", "quantifier": "all bytes", "why_tests_cant": "Not tested directly in the repository.", "anchors": ["aes.cpp: multiply, square, inverse"]}
{"id": "C20", "title": "AES is computed correctly", "statement": "Whenever aes_128/aes_192/aes_256 returns true, the output is the FIPS-197 encryption of each plaintext block under the key.", "quantifier": "all keys and plaintexts", "why_tests_cant": "2^128..2^256 keys; the tests have one vector per size.", "anchors": ["aes.cpp: aes_128, aes_192, aes_256 and the key schedule helpers"]}
{"id": "C21", "title": "Zero S-box inputs are detected exactly", "statement": "aes_N returns false if and only if some S-box input in the key schedule or in the rounds of the FIPS-197 evaluation is 0, and the recording variant (aes_N_with_sbox_output) succeeds on exactly the same inputs with the same ciphertext.", "quantifier": "all keys and plaintexts", "why_tests_cant": "Only specific keys trigger each of the 200..500 checks.", "anchors": ["aes.cpp: check_for_zeros*, check_for_zeros_and_save*"]}
{"id": "C22", "title": "Recorded S-box pairs are complete and multiply to one", "statement": "When it succeeds, aes_N_with_sbox_output returns two vectors of exactly num_sboxes bytes whose i-th entries are inverse to each other.", "quantifier": "all keys and plaintexts", "why_tests_cant": "All keys.", "anchors": ["aes.cpp: aes_*_with_sbox_output, check_for_zeros_and_save*", "banquet_instances.cpp: num_sboxes"]}
{"id": "C23", "title": "Shared AES evaluation recombines to the plain one", "statement": "For every number of parties n >= 1 and every xor-sharing of a key and of the S-box outputs of that key, the xor of the parties' ciphertext shares produced by aes_N_s_shares is the AES ciphertext and the xor of the parties' S-box input shares is the recorded S-box input vector, in the same order.", "quantifier": "all party counts, all keys, all plaintexts, all sharings", "why_tests_cant": "All sharings of all keys for any number of parties.", "anchors": ["aes.cpp: aes_128_s_shares, aes_192_s_shares, aes_256_s_shares"]}
{"id": "C24", "title": "Seed tree reconstruction", "statement": "For every number of leaves n >= 2 for which construction is defined, every root seed, salt, repetition and every leaf i: the tree rebuilt from reveal_all_but(i) returns for every other leaf j the same seed as the original tree.", "quantifier": "all leaf counts, all leaves, all seeds", "why_tests_cant": "All leaf counts (including non powers of two) and all positions; tests sample a few.", "anchors": ["tree.cpp: SeedTree constructors, reveal_all_but, get_leaf"]}
{"id": "C25", "title": "The reveal list does not disclose the hidden leaf", "statement": "The tree rebuilt from reveal_all_but(i) has no value for leaf i nor for any of its ancestors, and the reveal list contains only seeds of nodes that are not ancestors of leaf i.", "quantifier": "all leaf counts, all leaves", "why_tests_cant": "Secrecy of one leaf must hold at every position of every tree shape.", "anchors": ["tree.cpp: reveal_all_but, SeedTree(reveal_list_t)"]}
{"id": "C26", "title": "Reveal list size", "statement": "reveal_all_but returns exactly ceil_log2(n) entries of seed_size bytes each for every n >= 2 and leaf i, as deserialization assumes.", "quantifier": "all leaf counts, all leaves", "why_tests_cant": "Depends on path length in incomplete trees.", "anchors": ["tree.cpp: reveal_all_but", "macros.h: ceil_log2", "banquet.cpp: line 1257"]}
{"id": "C27", "title": "Seed tree construction is memory safe", "statement": "For every number of leaves n >= 2 both SeedTree constructors access only existing nodes, never expand a leaf and never write outside their buffers.", "quantifier": "all leaf counts, seed sizes 16/24/32", "why_tests_cant": "Out-of-bounds behaviour appears only for particular leaf counts never used by tests.", "anchors": ["tree.cpp: SeedTree constructors, expand_seed_x4"]}
{"id": "C28", "title": "Four-way and scalar hashing agree", "statement": "Committing to, expanding, or deriving tapes for four parties at once gives byte for byte the results of the scalar code path for each of them.", "quantifier": "all seeds, salts, repetitions, party indices", "why_tests_cant": "Signer and verifier use different paths; must agree on all inputs.", "anchors": ["banquet.cpp: commit_to_party_seed, commit_to_4_party_seeds", "tape.cpp: generate_tape, generate_4_tapes", "tree.cpp: expand_seed, expand_seed_x4"]}
{"id": "C29", "title": "Hashing is independent of how input is split", "statement": "Absorbing a byte string through any sequence of hash_update calls gives the same output as absorbing it at once, for SHAKE128 and SHAKE256.", "quantifier": "all splittings of all byte strings", "why_tests_cant": "Block-boundary interactions for every length and splitting.", "anchors": ["keccak/KeccakSponge.inc: SpongeAbsorb", "kdf_shake.h: hash_update"]}
{"id": "C30", "title": "Squeezing is independent of how output is split", "statement": "Any sequence of hash_squeeze calls yields consecutive pieces of one fixed output stream.", "quantifier": "all sequences of squeeze lengths", "why_tests_cant": "Block-boundary interactions for every length and splitting.", "anchors": ["keccak/KeccakSponge.inc: SpongeSqueeze", "kdf_shake.h: hash_squeeze"]}
{"id": "C31", "title": "The four-way sponge equals four scalar sponges", "statement": "Lane i of every x4 hash computation outputs exactly what the scalar sponge outputs on the i-th input.", "quantifier": "all inputs of equal length, all splittings", "why_tests_cant": "All inputs, lengths and splittings.", "anchors": ["keccak/KeccakSpongetimes4.inc", "kdf_shake.h: hash_*_x4"]}
{"id": "C32", "title": "Opened-party challenges are in range and well defined", "statement": "The T challenges expanded from h_3 are each below N, are a function of h_3 only, and do not depend on the uninitialised upper byte of the local variable used for sampling.", "quantifier": "all h_3, all N >= 1 below 2^16, all garbage values", "why_tests_cant": "Uninitialised memory content varies; all digests.", "anchors": ["banquet.cpp: phase_3_expand"]}
{"id": "C33", "title": "Evaluation challenges avoid the evaluation points of witness data", "statement": "Every R expanded from h_2 differs from the first m2 interpolation points (so that opened values are masked), is below 2^(8*lambda) and there are exactly T of them.", "quantifier": "all h_2", "why_tests_cant": "Rejection sampling must be right for every digest.", "anchors": ["banquet.cpp: phase_2_expand"]}
{"id": "C34", "title": "Random tape segments are disjoint and in bounds", "statement": "The portions of a party's random tape used for the key share, the S-box output shares, the masking points and the P shares are pairwise disjoint, lie inside the tape and cover it exactly.", "quantifier": "all parameter values, all parties and indices", "why_tests_cant": "Overlap would silently leak; holds for all parameter values.", "anchors": ["banquet.cpp: lines 327-330, 383-384, 400-402, 554-561, 617-625", "tape.cpp: get_bytes"]}
{"id": "C35", "title": "Per-party storage slots never overlap", "statement": "RepContainer::get(rep, party) denotes a slot inside the container; slots of different (rep, party) are disjoint, writing one leaves the others unchanged, and get_repetition(rep)[party] is the same slot.", "quantifier": "all container sizes and indices", "why_tests_cant": "All sizes.", "anchors": ["types.h: RepContainer"]}
{"id": "C36", "title": "Parameter table is internally consistent", "statement": "For every built-in parameter set: m1*m2 equals the number of S-boxes, the number of S-boxes matches the AES variant, seed size is half the digest size, N is a power of two between 16 and 256, lambda is supported. Every built-in set is of the kind over which C01 to C09 and the properties of signing and verification range.", "quantifier": "all parameter sets", "why_tests_cant": "A table-wide consistency claim.", "anchors": ["banquet_instances.cpp: instances"]}
{"id": "C37", "title": "A parameter set identifies itself", "statement": "banquet_instance_get(p).params equals p for every valid p, and banquet_instance_get throws for every other value.", "quantifier": "all enum values", "why_tests_cant": "The identifier is hashed into signatures; every entry must be right.", "anchors": ["banquet_instances.cpp: instances, banquet_instance_get"]}
{"id": "C38", "title": "Signing is deterministic", "statement": "banquet_sign called twice with equal arguments, after any histories of API calls, returns equal signatures; salt and seeds depend on nothing but parameter set, key pair and message.", "quantifier": "all inputs and histories", "why_tests_cant": "All histories.", "anchors": ["banquet.cpp: generate_salt_and_seeds, banquet_sign"]}
{"id": "C39", "title": "A signature is bound to its message and public key", "statement": "If the same signature verifies for (pk, m) and for (pk', m') with (pk, m) different from (pk', m') and public keys of the prescribed length, then two different hash inputs with equal digest can be read off, i.e. a hash collision has been found.", "quantifier": "all signatures (including adversarial), messages, public keys", "why_tests_cant": "Quantifies over adversarial inputs.", "anchors": ["banquet.cpp: phase_1_commitment, banquet_verify"]}
{"id": "C40", "title": "A verifying signature cannot be altered", "statement": "If two different well-shaped signatures with the same h_1 and h_3 both verify for the same public key and message, a hash collision can be read off: no component of a signature can be altered without detection.", "quantifier": "all pairs of signatures", "why_tests_cant": "Quantifies over adversarial alterations of any byte.", "anchors": ["banquet.cpp: phase_1_commitment, phase_2_commitment, phase_3_commitment, banquet_verify"]}
{"id": "C41", "title": "Acceptance implies the checked relations", "statement": "banquet_verify returns true only if in every repetition P(R) equals the sum of S_j(R)*T_j(R), h_1 is the digest of the recomputed commitments and h_3 the digest of the recomputed views; it returns false whenever one of them fails (and no exception occurs).", "quantifier": "all signatures, including adversarial ones", "why_tests_cant": "All adversarial signatures.", "anchors": ["banquet.cpp: banquet_verify lines 1153-1193"]}
{"id": "C42", "title": "Verify throws exactly on an opened-index mismatch", "statement": "On well-shaped input banquet_verify throws 'modified signature between deserialization and verify' if and only if some repetition's stored opened-party index differs from the one derived from h_3; signatures produced by deserialize never trigger it.", "quantifier": "all signatures", "why_tests_cant": "All adversarial signatures.", "anchors": ["banquet.cpp: lines 828-832, 1256-1261"]}
{"id": "C43", "title": "Opened values do not determine the key", "statement": "For any two valid witnesses of the same public key and any choice of opened parties and challenges permitted by the expansion, the hidden party's tape can be changed so that the signer reveals exactly the same deltas, broadcasts, P offsets and opened polynomial values: the values disclosed in a repetition are consistent with every witness.", "quantifier": "all witnesses, tapes, challenges r, all R outside the forbidden points, all hidden parties", "why_tests_cant": "Secrecy is a statement about all possible tapes.", "anchors": ["banquet.cpp: banquet_sign phases 1-5, phase_2_expand forbidden values"]}
{"id": "C44", "title": "Key material comes from the random source", "statement": "Every byte of a key returned by banquet_keygen was delivered by a successful call of the random source.", "quantifier": "all outcomes (including failures and short reads) of the random source", "why_tests_cant": "Failure of getrandom cannot be provoked by unit tests.", "anchors": ["banquet.cpp: banquet_keygen", "randomness.c: rand_bytes"]}
{"id": "C45", "title": "Output shares always recombine to the public ciphertext in verification", "statement": "In verification the recomputed output broadcasts of each repetition xor to the public-key ciphertext, and the recomputed S/T/P shares xor to the opened values, whatever the signature contains.", "quantifier": "all signatures", "why_tests_cant": "All adversarial signatures.", "anchors": ["banquet.cpp: lines 962-972, 1124-1150"]}
{"id": "C46", "title": "Sharing corrections are exact", "statement": "After the signer's correction of the first share, the parties' key shares xor to the key, the S-box output shares xor to the recorded outputs, and the P shares at each point sum to P's value there (sum of r_j on the first m2 points).", "quantifier": "all keys, tapes, party counts, challenges", "why_tests_cant": "All tapes.", "anchors": ["banquet.cpp: lines 377-418, 604-643"]}
{"id": "C47", "title": "Distinct hash uses have distinct inputs", "statement": "Hash inputs of seed commitments for different (repetition, party) differ, hash inputs of tree expansion for different nodes/repetitions differ, and the inputs of the different phases of the protocol (commitment, tape, expansion, h_1, h_2, h_3) can never coincide.", "quantifier": "all salts, seeds, indices", "why_tests_cant": "Domain separation is a statement about all inputs.", "anchors": ["banquet.cpp: commit_to_party_seed, phase_*_commitment", "tape.cpp", "tree.cpp: expand_seed", "types.h: HASH_PREFIX_*"]}
{"id": "C48", "title": "ceil_log2 is exact", "statement": "ceil_log2(x) is the least k with x <= 2^k for every 32-bit x >= 1, and 0 for 0; it never evaluates clz on 0.", "quantifier": "all 32-bit values", "why_tests_cant": "2^32 inputs.", "anchors": ["macros.h: ceil_log2, clz"]}
{"id": "C49", "title": "Hashing is SHAKE128/SHAKE256 of FIPS 202", "statement": "Initialising with a digest size, any sequence of updates, finalising and any sequence of squeezes puts out exactly SHAKE128 (digest size 32) or SHAKE256 (otherwise) of the concatenated input as defined bit by bit in FIPS 202; the same holds for each of the four inputs of the four-way functions; the permutation used is KECCAK-f[1600].", "quantifier": "all inputs and states, all splittings of input and output (each call below about 4 GiB)", "why_tests_cant": "Known-answer tests cover a handful of the 2^1600 states and of the infinitely many messages; a wrong lane or rotation for rare values, or a padding slip at one residue, is not excluded by them.", "anchors": ["kdf_shake.h: hash_init, hash_update, hash_final, hash_squeeze and their _x4 variants", "keccak/opt64/KeccakP-1600-opt64.c", "keccak/opt64/KeccakP-1600-64.macros", "keccak/KeccakSponge.inc"]}
{"id": "C50", "title": "The portable Keccak code computes SHAKE from its memory accesses up", "statement": "With the portable (opt64) implementation compiled in, hashing puts out SHAKE128/SHAKE256 of the input for every earlier content of the hash context's memory, every splitting of input and output and all four lanes of the four-way functions, and no access leaves the state or the caller's buffers.", "quantifier": "all initial memory contents, inputs and splittings (each call below about 4 GiB)", "why_tests_cant": "Partial lanes, offsets, lane counts and the fast loop give a large family of paths that only particular lengths and splittings reach; uninitialised memory has 2^1600 contents.", "anchors": ["keccak/opt64/KeccakP-1600-opt64.c: KeccakP1600_AddBytes, KeccakP1600_ExtractBytes, KeccakF1600_FastLoop_Absorb", "keccak/SnP-Relaned.h", "keccak/opt64/PlSnP-Fallback.inc", "keccak/opt64/KeccakP-1600-64.macros: addInput", "keccak/KeccakSponge.inc", "keccak/KeccakSpongetimes4.inc"]}
{"id": "C51", "title": "The assembly Keccak built by default computes SHAKE and respects its caller", "statement": "With the AVX2 assembly compiled in (the default), hashing puts out SHAKE128/SHAKE256 of the input for every earlier content of the hash context's memory and of the processor's registers and every splitting of input and output. Each assembly call made with in-bounds arguments whose 32-bit lengths are zero-extended to 64 bits returns, touches nothing but the state, the caller's buffer and its constants, keeps the input buffer and restores the callee-saved register it uses. Without zero-extension of the length, which the calling convention does not promise, the claim is false: AddBytes then runs past the caller's buffer.", "quantifier": "all memory contents, register contents, inputs, offsets, lengths and splittings (each call below about 4 GiB)", "why_tests_cant": "The byte, aligned-lane and block paths depend on offset, length and register garbage; a wrong lane permutation, shift count or register clobber can stay unnoticed for most of them, and sanitizers do not instrument assembly.", "anchors": ["keccak/avx2/KeccakP-1600-AVX2.s: KeccakP1600_Initialize, KeccakP1600_AddByte, KeccakP1600_AddBytes, KeccakP1600_ExtractBytes, KeccakP1600_Permute_24rounds, KeccakF1600_FastLoop_Absorb, __KeccakF1600", "keccak/avx2/KeccakP-1600-SnP.h", "keccak/KeccakSponge.inc", "keccak/CMakeLists.txt: USE_AVX2"]}
{"id": "C52", "title": "The four-way vector Keccak built by default computes SHAKE of each input", "statement": "With AVX2 compiled in (the default), four-way hashing puts out, for each of the four inputs, SHAKE128/SHAKE256 of that input, for every earlier content of the hash context's memory and every splitting of input and output into calls, without accessing memory outside the four states and the caller's buffers, provided the context and the two byte-shuffle tables lie at addresses that are multiples of 32. The tables are declared without that alignment; where the linker places one at a multiple of 8 only, every permutation faults.", "quantifier": "all memory contents, four-tuples of inputs of equal length, splittings of input and output (each call below about 4 GiB), and placements of the three objects", "why_tests_cant": "The partial-lane paths depend on offset and length; a rotation by a byte shuffle or a lane index that is wrong for one of four inputs need not show up in tests that hash the same data four times; the placement of the tables is up to the linker, so no test of one binary says anything about another.", "anchors": ["keccak/avx2/KeccakP-1600-times4-SIMD256.c: KeccakP1600times4_InitializeAll, KeccakP1600times4_AddBytes, KeccakP1600times4_ExtractBytes, KeccakP1600times4_PermuteAll_24rounds, rho8, rho56", "keccak/avx2/KeccakP-1600-times4-SnP.h: KeccakP1600times4_AddByte", "keccak/KeccakSpongetimes4.inc", "kdf_shake.h: hash_init_x4, hash_update_x4, hash_final_x4, hash_squeeze_x4"]}
{"id": "C53", "title": "All builds hash alike and accept each other's signatures", "statement": "For every sequence of hash calls the default build (AVX2 assembly, four-way vector code) and the portable build put out the same bytes, namely those of SHAKE128/SHAKE256 of FIPS 202, scalar and four-way; so what is proved of keygen, sign and verify for every hash function holds of both builds, and a signature made by one is accepted by the other.", "quantifier": "all earlier memory and register contents, inputs, splittings of input and output (each call below about 4 GiB), parameter sets, keys and messages", "why_tests_cant": "The builds run different code for every block, byte and lane path; test vectors generated by one build compare only the paths they happen to take.", "anchors": ["kdf_shake.h", "keccak/CMakeLists.txt: USE_AVX2", "keccak/avx2", "keccak/opt64", "keccak/KeccakSponge.inc", "keccak/KeccakSpongetimes4.inc", "banquet.cpp: banquet_sign, banquet_verify"]}
{"id": "C54", "title": "Signatures cannot be made from public data alone", "statement": "Given only the hash function, a public key and a message there is no procedure whose output verification accepts; in particular no signature is accepted for a public key to which no secret key belongs.", "quantifier": "all hash functions, parameter sets (built in or of the same kind, as in C01), public keys, messages, salts and seeds", "why_tests_cant": "Tests only run honest signers and randomly damaged signatures; the claim is about every way of computing a signature.", "anchors": ["banquet.cpp: phase_2_commitment, phase_2_expand, banquet_verify", "types.h: banquet_repetition_proof_t::P_delta"]}
{"id": "C55", "title": "Two answers to the last challenge give away a secret key", "statement": "If two signatures for the same public key and message with the same first and last challenge hash are both accepted, where the last challenge opened different parties, then the two signatures together contain a secret key for that public key, unless the hash function collided, or the random coefficients or the random evaluation point were bad for the values committed to. Per coefficient at most one value is bad, and at most 2*m2 points are bad for given corrections.", "quantifier": "all pairs of hash functions that differ only in the answer to the last challenge, parameter sets (built in or of the same kind, as in C01; digest size different from seed size + 36), public keys, messages and pairs of signatures, honest or not", "why_tests_cant": "The claim is about every pair of signatures an adversary could produce; tests only run honest signers.", "anchors": ["banquet.cpp: banquet_verify, phase_1_expand, phase_2_expand, phase_3_expand", "banquet.cpp: phase_1_commitment, phase_2_commitment, phase_3_commitment", "tree.cpp: SeedTree::SeedTree(const reveal_list_t &, ...)"]}
{"id": "C56", "title": "Calls made by several threads answer as if made alone", "statement": "If several threads of a process call the API at the same time, each call returns what it would return in a process of its own.", "quantifier": "all numbers of threads, all lists of calls with all arguments in each thread, all schedules and all earlier histories", "why_tests_cant": "The claim is about every interleaving; a test run sees a few of them, and a data race need not show.", "anchors": ["field.cpp: GF2E::init_extension_field, init_lifting_lut, lifting_lut", "field.h: GF2E::reduce, byte_size, modulus", "banquet.cpp: banquet_sign, banquet_verify"]}
{"id": "C57", "title": "The random source fills the buffer or says so", "statement": "A call of the random source returns; if it reports success the whole buffer consists of bytes the operating system delivered for this call, in order; if it reports failure the operating system did; it writes nothing outside the buffer and leaves no file open. Key generation returns only keys made of bytes so delivered.", "quantifier": "all buffers, all sequences of answers of the operating system to the system calls: errors, interruptions, short reads", "why_tests_cant": "Errors, interruptions and short reads of the kernel's random device cannot be provoked by a test, let alone in all orders.", "anchors": ["randomness.c: rand_bytes", "banquet.cpp: banquet_keygen"]}
{"id": "C58", "title": "Parameters outside the table work like those in it", "statement": "With an instance the caller fills in (one of the three AES variants, a supported field, m1*m2 S-boxes, a seed size up to 32, any number of parties, repetitions and any digest size), key pairs are consistent, signing returns a signature without undefined behaviour, its serialization has the length the formula gives and is read back, and verification accepts it, accepting other signatures only if the checked relations hold.", "quantifier": "all such instances, hash functions, random sources, messages, signatures", "why_tests_cant": "The instances are infinitely many; the tests run the table.", "anchors": ["tools/bench_free.cpp: bench_sign_and_verify_free", "banquet.cpp: banquet_keygen, banquet_sign, banquet_verify", "tree.cpp: SeedTree::SeedTree"]}
{"id": "C59", "title": "Different signing calls do not share randomness", "statement": "If two signing calls return signatures with the same salt, then the calls had the same parameter set, key pair and message (and returned the same signature), or two different inputs of the hash function with the same 32-byte output are at hand.", "quantifier": "all hash functions, all pairs of parameter sets, key pairs and messages, all process states, all contents of uninitialised memory", "why_tests_cant": "Reusing randomness for two messages leaks the key, and tests can only compare a few pairs of calls.", "anchors": ["banquet.cpp: banquet_sign, generate_salt_and_seeds", "banquet_instances.cpp: banquet_instance_get"]}
{"id": "C60", "title": "The table entries signing reads do not depend on the secret key", "statement": "Which entries of its lookup table a signing call reads, and how many, depends only on public data: someone who observes the addresses, or the cache lines, of these accesses learns nothing about the secret key.", "quantifier": "all parameter sets (built in or of the same kind, as in C01), key pairs from key generation, messages, hash functions, process states, all alignments of the table", "why_tests_cant": "Tests compare results, not the addresses of memory accesses, and independence is a claim about all keys.", "anchors": ["field.cpp: lift_uint8_t, lifting_lut", "banquet.cpp: banquet_sign"]}
{"id": "C61", "title": "Signing with a wrong key pair is safe and useless", "statement": "Called with a key pair of the right lengths whose ciphertext is not the encryption of its plaintext under its secret key, or whose secret key was not made by key generation, signing has no undefined behaviour; if the ciphertext is wrong, a signature it returns is accepted neither under the public key in the pair nor under the one that belongs to the secret key, unless a hash collision is at hand.", "quantifier": "all parameter sets (built in or of the same kind, as in C01), all secret keys, plaintexts and ciphertexts of the right lengths, all messages, hash functions, process states, contents of uninitialised memory", "why_tests_cant": "Tests sign with generated key pairs; the claim is about all key pairs an application may load, including the rare keys for which the cipher meets a zero.", "anchors": ["banquet.cpp: banquet_sign, banquet_verify", "aes.cpp: aes_128_with_sbox_output, aes_192_with_sbox_output, aes_256_with_sbox_output, check_for_zeros_and_save"]}
{"id": "C62", "title": "Challenges are unbiased", "statement": "The hidden parties, evaluation points and coefficients of a signature are equally likely if the hash output is: every list of hidden parties, every list of allowed evaluation points and every list of coefficients comes from the same number of hash outputs of a given length. For the parameter sets, exactly (256/N)^T of the 256^T outputs lead to a given list of T hidden parties, and exactly one output to given coefficients.", "quantifier": "all parameter sets (built in or of the same kind, as in C01) (hidden parties: also all party counts from 1 to 65535), all lists of challenges, all output lengths, all hash functions, digests, contents of uninitialised memory", "why_tests_cant": "Uniformity is a statement about the number of all hash outputs, 2^248 for the first parameter set; a biased mask or modulus passes every functional test.", "anchors": ["banquet.cpp: phase_1_expand, phase_2_expand, phase_3_expand"]}
{"id": "C63", "title": "Generated key pairs are unbiased", "statement": "If the random source works, key generation returns every pair of a secret key and a plaintext whose encryption has no zero S-box input with the same probability: each such pair comes from the same number of strings of random bytes, however many attempts are allowed.", "quantifier": "all parameter sets (built in or of the same kind, as in C01), all admissible keys and plaintexts, all bounds on the number of attempts, all strings of random bytes of that length", "why_tests_cant": "There are 2^256 pairs or more; no test can see that some of them are more likely than others.", "anchors": ["banquet.cpp: banquet_keygen", "aes.cpp: aes_128, aes_192, aes_256"]}
{"id": "C64", "title": "Assertions fail only for misuse", "statement": "A build with assertions generates keys, signs with generated keys, and verifies (with any public key, signature structure and message) without a failed assertion and with the result of the release build. Signing with another key pair fails an assertion exactly if the secret key has the wrong length, some S-box input is zero or the ciphertext is not the encryption of the plaintext. Deserialization fails one exactly if the string is longer than a serialized signature.", "quantifier": "all parameter sets (built in or of the same kind, as in C01), random sources, keys, messages, public keys, signature structures, byte strings, hash functions and process states", "why_tests_cant": "Whether an assertion can fail depends on every malformed signature and key pair; tests feed a few, usually to one build type only.", "anchors": ["tree.cpp: get_parent, get_sibling, SeedTree::get_leaf (assert)", "aes.cpp: aes_128, aes_128_with_sbox_output and the 192/256 variants (assert)", "banquet.cpp: phase_3_expand, banquet_sign, banquet_deserialize_signature (assert)"]}
{"id": "C65", "title": "The benchmark programs run what their arguments say, and it verifies", "statement": "bench runs exactly if its arguments are the number of a parameter set in the table and possibly an iteration count, refuses everything else with a message and status -1 before any call, and in each iteration the signature verifies after transport and the size printed is that of the parameter set's signatures. bench_free does the same for the instance made of its six numbers and refuses unusable ones.", "quantifier": "all argument lists, random sources, hash functions, numbers of iterations, contents of uninitialised memory", "why_tests_cant": "Argument lists and iteration counts are unbounded, and uninitialised memory differs from run to run.", "anchors": ["tools/bench_utils.cpp: parse_long, parse_uint32_t, parse_args, parse_args_free", "tools/bench.cpp: main, bench_sign_and_verify", "tools/bench_free.cpp: main, bench_sign_and_verify_free"]}
{"id": "C66", "title": "A call that is cut off does no harm to later calls", "statement": "If any number of API calls are left at any point, by an exception such as a failing allocation, by a jump out of a signal handler, or because the process forks while another thread is inside a call, then the calls from the next sign or verify on answer as in a fresh process. If they are left after the initialisation of the field, the point from which sign and verify can throw, then all later calls answer as if they had returned.", "quantifier": "all histories of calls, all points at which each is cut off, all later calls, all orders in which the code reads the static members", "why_tests_cant": "The points at which a call can be cut off, and the histories, are unbounded; a test cannot make every allocation fail.", "anchors": ["banquet.cpp: banquet_sign, banquet_verify", "field.cpp: GF2E::init_extension_field, init_lifting_lut, lifting_lut"]}
{"id": "C67", "title": "The hash library computes the FIPS 202 functions of bit strings", "statement": "Initialising with any valid rate, capacity, suffix and digest length (in particular by the macros for SHA3-224/256/384/512 and SHAKE128/256), giving a message of any number of bits in any number of updates, finishing and asking for output yields the function of FIPS 202 on exactly those bits followed by the suffix. The return values are right: invalid parameters are refused, after the end further input and a second end fail and change nothing, as does a request for output that is not whole bytes.", "quantifier": "all rates, capacities, suffixes and digest lengths; all messages and ways to split them; all sequences of calls after the end; all permutations", "why_tests_cant": "Messages, their bit lengths and splittings, and call sequences are unbounded; the interplay of last bits, suffix, padding and block boundary has too many cases.", "anchors": ["keccak/KeccakHash.c: Keccak_HashInitialize, Keccak_HashUpdate, Keccak_HashFinal, Keccak_HashSqueeze", "keccak/KeccakHash.h: Keccak_HashInitialize_SHA3_224 and the other macros"]}
{"id": "C68", "title": "The one-shot sponge function agrees with the incremental one", "statement": "The one-shot sponge function writes the same output as initialising, absorbing, appending the suffix and squeezing, for inputs and outputs of any length (also those that the incremental functions cannot take at once), and returns 1 without writing for invalid parameters.", "quantifier": "all rates, capacities, suffixes, inputs, output lengths, permutations", "why_tests_cant": "Inputs, outputs and parameters are unbounded.", "anchors": ["keccak/KeccakSponge.inc: Sponge"]}
{"id": "C69", "title": "The four-way hash library is four scalar ones", "statement": "For every sequence of calls of the four-way hash functions with updates of whole bytes, each of the four lanes returns and writes what the scalar functions would for that lane's data, with the same outcome. Updates of other numbers of bits are refused and change nothing. With the initialisation macros each lane computes the function of FIPS 202 of that name on that lane's bytes (calls below 2^32 - 200 bytes).", "quantifier": "all parameters, all sequences of calls, all data of equal lengths, all permutations", "why_tests_cant": "Call sequences and data are unbounded.", "anchors": ["keccak/KeccakHashtimes4.c: Keccak_HashInitializetimes4, Keccak_HashUpdatetimes4, Keccak_HashFinaltimes4, Keccak_HashSqueezetimes4", "keccak/KeccakSpongetimes4.inc"]}
{"id": "C70", "title": "The bytes of a serialized signature", "statement": "A serialized signature is: the salt, h_1, h_3, then for each repetition in order the revealed seeds, the closed party's commitment, the corrections of the key, of the S-box outputs and of P, then P(R), all S_j(R), all T_j(R), with field elements as lambda little-endian bytes and nothing between or after. Serializing returns exactly that string; deserializing a string with at least that many bytes returns exactly the components at those offsets, and takes the closed parties from h_3.", "quantifier": "all regular parameters, all signature objects of the prescribed shape (in particular all returned by signing), all byte strings", "why_tests_cant": "A serializer and a deserializer that agree on a wrong layout pass every round-trip test; the offsets have to be right for all parameters and contents.", "anchors": ["banquet.cpp: banquet_serialize_signature, banquet_deserialize_signature", "types.h: banquet_signature_t, banquet_repetition_proof_t"]}
{"id": "C71", "title": "The signature as a function of the key, the public key and the message", "statement": "For every hash function, key pair and message there is at most one signature that fits the written scheme (salt and root seeds from the key, public key and message; seed trees; commitments; tapes; corrections; the polynomials S_j, T_j and P; evaluation points R; the three challenges; the siblings revealed), described relation by relation rather than as the program computes it. Whatever signing returns, in any process state, is that signature; and if there is such a signature, signing returns it once it may draw enough candidates for the evaluation points.", "quantifier": "all regular parameters, all hash functions, all keys and plaintexts without a zero S-box input, all public keys of the right length, all messages, all process states and indeterminate bytes", "why_tests_cant": "Known-answer tests fix finitely many keys and messages; that signing equals the scheme, with nothing else in the signature and no other input, is a statement about all of them.", "anchors": ["banquet.cpp: banquet_sign, generate_salt_and_seeds, commit_to_party_seed, phase_1_commitment, phase_2_commitment, phase_3_commitment", "tree.cpp: SeedTree, reveal_all_but", "tape.cpp: RandomTape"]}
{"id": "C72", "title": "Parameters that are refused", "statement": "With a lambda other than 2, 4, 5 or 6 signing and verifying throw and leave the field the process had set. With a cipher key size other than 16, 24 or 32 bytes key generation and signing throw, and verification returns neither true nor false (unless the parameters have no repetitions).", "quantifier": "all parameter structures with such a value, whatever the other values; all keys, signatures, messages, hash functions, random sources, process states", "why_tests_cant": "The refusal has to come before any access that depends on the refused value, for every structure.", "anchors": ["banquet.cpp: banquet_keygen, banquet_sign, banquet_verify (dispatch on key_size)", "field.cpp: GF2E::init_extension_field"]}
{"id": "C73", "title": "Which part of a signature object counts", "statement": "Verification and serialization look at the first num_rounds proofs, at the first m2+1 entries of each P correction and the first m1 opened values of S and T, and at nothing behind: objects that differ only there have the same outcome (so an accepted object with extra proofs or entries is accepted too). Verification returns true or false only if there are num_rounds proofs, the vectors are long enough (one entry of the P correction may be missing if party 0 is closed) and the corrections and the commitment end inside the vectors they are copied to; with too few proofs it reads outside a vector.", "quantifier": "all parameters, all signature objects of any shape, all public keys and messages, all process states", "why_tests_cant": "Signature objects are plain structures a caller can fill in any shape; tests use those produced by signing or deserializing.", "anchors": ["banquet.cpp: banquet_verify, banquet_serialize_signature, phase_1_commitment, phase_2_commitment, phase_3_commitment", "types.h: banquet_signature_t, banquet_repetition_proof_t"]}
{"id": "C74", "title": "A signature belongs to one parameter set", "statement": "If two signatures with the same h_3, or one byte string taken as a signature under two parameter sets with the same digest size, are accepted under two different parameter sets of the table, for whatever public keys and messages, then two different hash inputs with the same digest can be read off. Only the parameters count: the number of the parameter set (params) is not looked at by verification, serialization and deserialization.", "quantifier": "all pairs of different built-in parameter sets (and all freely chosen ones whose views have different sizes), all signatures, byte strings, public keys, messages, hash functions and process states", "why_tests_cant": "It is about all pairs of parameter sets and all signatures, including ones no signer made; tests verify with the set used for signing.", "anchors": ["banquet.cpp: banquet_verify, banquet_deserialize_signature, phase_3_commitment", "banquet_instances.cpp: instances"]}
{"id": "C75", "title": "The outcome of a call is determined by its arguments", "statement": "Two calls of banquet_verify with equal arguments that both end, end alike: the same verdict, the same exception, or undefined behaviour in both, whatever calls the two processes made before and whatever their uninitialised memory holds. The same holds for banquet_sign; for banquet_deserialize_signature in processes whose last signing or verifying call used the same field; and for banquet_keygen when the random source delivers the same bytes.", "quantifier": "all hash functions, parameter structures, public keys, signature objects, serialized strings and messages of any shape; all pairs of call histories and memory contents", "why_tests_cant": "a test sees one history and one memory content; a stale static table or an uninitialised byte shows only under another", "anchors": ["banquet.cpp: banquet_verify, banquet_sign, banquet_deserialize_signature, banquet_keygen, phase_3_expand", "field.cpp: GF2E static members"]}
{"id": "C76", "title": "Values of different parties and repetitions are kept apart in memory", "statement": "Signing and verifying keep the commitments, tapes and shares of all repetitions and parties one after the other in one vector each. Every value of one party and repetition stays as computed until it is used: signing with a generated key, and verifying any signature object whose vectors have the prescribed lengths, have exactly the outcome they would have if each party and repetition had a buffer of its own; so honest signatures verify and acceptance is as specified. For signature objects with longer vectors this holds as well.", "quantifier": "all hash functions, all parameters (any number of repetitions, 2 to 65535 parties; for signing at most 15 below a power of two, since it overruns otherwise), all keys, messages and signature objects, all process states", "why_tests_cant": "An index computed wrongly for one combination of repetition, party and parameters corrupts a neighbour's value, possibly only when sizes or the closed party have certain values; tests use a few parameter sets and no malformed objects.", "anchors": ["types.h: RepContainer", "tape.cpp: RandomTapes", "banquet.cpp: banquet_sign, banquet_verify, phase_1_commitment, phase_3_commitment"]}
{"id": "C77", "title": "Drawing challenges and keys rarely takes long", "statement": "Signing, verifying and key generation draw evaluation points, closed parties and keys by discarding candidates, without a limit in the code. How often a given number of candidates does not suffice is exactly known: of the hash outputs with q candidates, the number with fewer than T acceptable ones is the sum over j<T of choose(q,j) a^j b^(q-j), with b = m2 of 256^lambda candidates unacceptable for evaluation points, and none for closed parties when their number is a power of two. With T+d candidates it is at most the share choose(T+d,d+1) (m2/256^lambda)^(d+1). A call still drawing after q candidates has one of these outputs for its own digests. Key generation is without a result after q attempts for exactly B^q strings of random bytes, B < 256^(ks+ps) being the number of pairs with a zero S-box input.", "quantifier": "all parameters (2 to 65535 parties), all numbers of candidates q, all hash functions, signatures, keys, messages", "why_tests_cant": "Calls that take long are too rare to be seen (a share below 2^-45 already for one candidate more than needed), and a draw that accepts too few candidates only shows as a call that sometimes does not return.", "anchors": ["banquet.cpp: phase_2_expand, phase_3_expand, banquet_keygen, banquet_sign, banquet_verify"]}
{"id": "C78", "title": "Few challenges let a signer through that does not know the key", "statement": "Take a signer whose S-box values contain a wrong pair in every repetition where it needs luck. Of the coefficient challenges, at most the share choose(T,k)/F^k hide the wrong pairs in at least k of the T repetitions (F = 256^lambda field elements); of the evaluation-point challenges, for fixed coefficients, tapes and corrections, at most the share choose(T,k) (2 m2/(F-m2))^k are bad in at least k repetitions; of the challenges of closed parties, at most the share choose(T,k)/N^k agree with a guess in at least k. Even if the corrections are chosen after all coefficients and the guessed parties after all points, every repetition is passed for at most the share (1/F + 2 m2/(F-m2) + 1/N)^T of all challenges. The bounds are nearly met: one wrong pair is hidden exactly when one coefficient is 0, and corrections can be chosen that make any m2+1 points bad.", "quantifier": "all parameters with a power of two of parties, all S-box values, tapes, corrections and guesses (the latter two as arbitrary functions of the earlier challenges), all k", "why_tests_cant": "The shares are around 2^-128 and less, and the claim is about every dishonest signer; tests run honest ones.", "anchors": ["banquet.cpp: phase_1_expand, phase_2_expand, phase_3_expand, banquet_verify"]}
{"id": "C79", "title": "One accepted signature and the seeds committed to in it give the key", "statement": "Take one accepted signature and, for every repetition and party, a seed with the commitment that verification computes or reads. Then two different seeds have the same commitment, or in every repetition at most the closed party has broadcast anything that does not follow from its seed, and if it has not, the key shares that follow from the seeds add up to a secret key for the public key, unless the drawn coefficients or evaluation point are among the few bad ones. If no repetition gives the key, the challenges are among those that let a signer without the key through. For honest signatures nobody deviates and the seeds give the signer's key.", "quantifier": "all hash functions, all parameters with a power of two of parties, all signature objects of the prescribed shape, public keys, messages and seeds, all process states", "why_tests_cant": "It is about every accepted signature, however it was made, and every choice of seeds; a check that verification leaves out would only show with a signature built to exploit it.", "anchors": ["banquet.cpp: banquet_verify, banquet_sign, commit_to_4_party_seeds", "tape.cpp: RandomTapes", "aes.cpp: AES128::aes_128_s_shares"]}
{"id": "C80", "title": "The functions on a Keccak state, used in any order, act on an array of 200 bytes", "statement": "Whatever calls KeccakP1600_AddByte, AddBytes, OverwriteBytes, OverwriteWithZeroes, Permute_24rounds, Permute_12rounds, Permute_Nrounds, ExtractBytes, ExtractAndAddBytes, KeccakF1600_FastLoop_Absorb and KeccakP1600_12rounds_FastLoop_Absorb are made on a state after KeccakP1600_Initialize, with arguments within the 200 bytes of the state, the caller gets the bytes that the same operations give on an array of 200 bytes, where the permutations are KECCAK-p[1600, nr] of FIPS 202 with the last nr of the 24 rounds and the absorbing loops xor each whole block of 1 to 25 lanes into the state, permute it and return the number of bytes absorbed. The assembly for AVX2 and the C code for 64-bit machines cannot be told apart by their results. No call touches memory other than the state, its data and its tables.", "quantifier": "all sequences of calls with all arguments within bounds, all earlier contents of the state and of the registers, both implementations", "why_tests_cant": "The lane order of the assembly and its special cases for partial lanes depend on every combination of offset and length and on what earlier calls left behind; the library's users in this repository never call half of these functions.", "anchors": ["keccak/avx2/KeccakP-1600-AVX2.s: KeccakP1600_*", "keccak/opt64/KeccakP-1600-opt64.c: KeccakP1600_*", "keccak/opt64/KeccakP-1600-unrolling.macros: rounds12, roundsN", "keccak/SnP-Relaned.h"]}
{"id": "C81", "title": "The hash library computes the sponge of FIPS 202 on either implementation of the permutation", "statement": "Keccak_HashInitialize with any valid rate, capacity, suffix and digest length, then any updates (all but the last of whole bytes), Keccak_HashFinal and any further calls, linked with the AVX2 assembly or with the 64-bit C code: the digest and all later output are the bits of SPONGE[KECCAK-f[1600], pad10*1, rate] on the message followed by the bits of the suffix; late updates, a second Final and requests for part of a byte fail and change nothing; invalid parameters are refused. With the macros of KeccakHash.h these are SHA3-224, -256, -384, -512, SHAKE128 and SHAKE256. The one-shot function Sponge() gives the same output. No call reads or writes outside the state and the caller's buffers.", "quantifier": "all rates from 8 to 1600 bits, suffixes, digest lengths, messages of any number of bits, sequences of calls, earlier contents of state and registers, both implementations", "why_tests_cant": "Every rate takes another path through the absorbing loops of the assembly, rates that are no whole number of lanes take the loop in the sponge; the split of the message into updates is arbitrary.", "anchors": ["keccak/KeccakHash.c", "keccak/KeccakSponge.inc: Sponge, SpongeInitialize, SpongeAbsorb, SpongeAbsorbLastFewBits, SpongeSqueeze", "keccak/avx2/KeccakP-1600-AVX2.s: KeccakF1600_FastLoop_Absorb", "keccak/opt64/KeccakP-1600-opt64.c"]}
{"id": "C82", "title": "The four-way hash library computes four independent sponges of FIPS 202 on either implementation", "statement": "Keccak_HashInitializetimes4 with any valid rate, capacity, suffix and digest length, then any updates with four buffers of whole bytes, Keccak_HashFinaltimes4 and any further calls, linked with the AVX2 intrinsics or with the 64-bit C code: in each of the four lanes the digest and all later output are the bits of SPONGE[KECCAK-f[1600], pad10*1, rate] on that lane's message followed by the bits of the suffix, as the scalar functions would give, whatever the other three lanes hold; late updates, a second Final and requests for part of a byte fail and change nothing; invalid parameters are refused. With the macros of KeccakHashtimes4.h these are SHA3-224, -256, -384, -512, SHAKE128 and SHAKE256 in each lane.", "quantifier": "all rates from 8 to 1600 bits, suffixes, digest lengths, quadruples of messages of equal length, sequences of calls, earlier contents of the states, both implementations", "why_tests_cant": "The lanes share vector registers; an influence of one lane on another shows only for particular contents. Rates other than those of SHAKE are used by no test.", "anchors": ["keccak/KeccakHashtimes4.c", "keccak/KeccakSpongetimes4.inc", "keccak/avx2/KeccakP-1600-times4-SIMD256.c", "keccak/opt64/PlSnP-Fallback.inc"]}
{"id": "C83", "title": "The functions on four Keccak states act as on four arrays of 200 bytes, in any order of calls", "statement": "After KeccakP1600times4_InitializeAll, any sequence of calls of AddByte, AddBytes, OverwriteBytes, OverwriteWithZeroes, ExtractBytes and ExtractAndAddBytes on one of the states, AddLanesAll, OverwriteLanesAll, ExtractLanesAll, ExtractAndAddLanesAll and the permutations of all states with 24, 12, 6 and 4 rounds gives the caller the same bytes with the AVX2 intrinsics, with the 64-bit C code, and with four separate arrays of 200 bytes; no call reads or writes outside the states and the caller's buffers, and bytes of the output between the lanes stay as they were.", "quantifier": "all sequences of calls with arguments within bounds, all numbers of lanes from 0 to 25, all lane offsets, all data, any earlier contents of the memory, both implementations", "why_tests_cant": "The lane functions have separate code for fewer than 16, for 16 to 19 and for 20 to 25 lanes, with transpositions in vector registers; most of them are called by no test, and a wrong lane shows only for some counts and offsets.", "anchors": ["keccak/avx2/KeccakP-1600-times4-SIMD256.c", "keccak/avx2/KeccakP-1600-unrolling.macros", "keccak/opt64/PlSnP-Fallback.inc"]}
{"id": "C84", "title": "The absorbing loops on four Keccak states absorb exactly the blocks the data holds for all four, in any order with other calls", "statement": "KeccakF1600times4_FastLoop_Absorb and KeccakP1600times4_12rounds_FastLoop_Absorb, called with laneCount, laneOffsetParallel, laneOffsetSerial and data, add for j = 0, 1, ... the laneCount lanes from lane laneOffsetSerial * j + laneOffsetParallel * i on into state i, for the four states, and apply the permutation with 24 or 12 rounds to each state, as long as the blocks of all four states lie within the data; they return the number of bytes from the start of the data to the next block. This holds between any other calls on the states, nothing outside the data and the states is read or written, and the loops end.", "quantifier": "all sequences of these and the other calls on four states, all numbers of lanes from 0 to 25, all offsets, data of any length, any earlier contents of the memory", "why_tests_cant": "The loops have separate code in registers for 21 lanes, nothing in the repository calls them, and whether they end or stay within the data depends on the offsets and the length together.", "anchors": ["keccak/avx2/KeccakP-1600-times4-SIMD256.c:KeccakF1600times4_FastLoop_Absorb", "keccak/avx2/KeccakP-1600-times4-SIMD256.c:KeccakP1600times4_12rounds_FastLoop_Absorb", "keccak/KeccakSpongetimes4.inc", "keccak/KeccakSpongetimes4.c"]}
{"id": "C85", "title": "rand_bytes over /dev/urandom leaves no file descriptor open and uses none that is not", "statement": "Where rand_bytes reads /dev/urandom, then whatever the system calls answer: at every moment at most one descriptor is open, only that one is passed to read, ioctl, fcntl or close, and when rand_bytes returns, with either result, none is left open. Every read asks for the rest of the buffer and no more. Without O_CLOEXEC the close-on-exec flag is set before any byte is read.", "quantifier": "all answers of open, ioctl, fcntl and read, interruptions included, all buffer lengths, all moments of a call, also one that never returns", "why_tests_cant": "The paths on which a descriptor could leak are those where a system call fails or is interrupted; a test cannot make the kernel fail at each of them, and a leak shows only after many calls.", "anchors": ["randomness.c:rand_bytes"]}
{"id": "C86", "title": "The benchmark timer can always be set up, and its descriptor is closed once", "statement": "timing_init succeeds whatever performance counters the machine offers, so no benchmark stops because of it. If the timer is then read any number of times and closed at least once, only an open descriptor is ever read or closed, and none is left open; closing again does nothing.", "quantifier": "all machines (with or without processor counters and perf events), all descriptors that are ints, all readings and failures of them, all numbers of readings and closings", "why_tests_cant": "Which of the three timers is used depends on the machine the test runs on; the fallbacks and failing readings occur on none that a test chooses.", "anchors": ["tools/bench_timing.cpp:timing_init", "tools/bench_timing.cpp:perf_close", "tools/bench_timing.h:timing_close"]}
{"id": "C87", "title": "Kravatte compression, four blocks at a time, is Farfalle's compression", "statement": "KeccakP1600times4_KravatteCompress processes every whole group of four 200-byte blocks of the input: block t is added to the key rolled t times, permuted with 6 rounds of Keccak-p and added to the accumulator. It leaves the key rolled once per block, returns the number of bytes used, and reads nothing beyond the input, whatever its length.", "quantifier": "all accumulators, keys and inputs of any length, all aligned addresses", "why_tests_cant": "Inputs of any number of blocks; the rolling function works on vectors that mix the words of four successive keys, and a wrong word would show for some keys only.", "anchors": ["keccak/avx2/KeccakP-1600-times4-SIMD256.c:KeccakP1600times4_KravatteCompress", "keccak/avx2/KeccakP-1600-times4-SIMD256.c:Kravatte_Rollc"]}
