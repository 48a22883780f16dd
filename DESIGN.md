# Design

Rocq (Coq 8.16.1) model of the AWS Encryption SDK for C, built from the sources in /repo
read as text. This file says, per property of `properties.jsonl`, what is modelled and how the
property is proved; results found to be false, and the trusted base, are at the end.

## Conventions

* A byte is an `N`; byte strings are `list N`; `bytes_ok` says all elements are < 256.
* `size_t`, `uint64_t`, `uint32_t` values are `N` with explicit reduction modulo 2^64 / 2^32 at
  the places where the C code can wrap or truncate.
* C errors are an inductive type; `abort()`, failed `assert` and reads of uninitialised memory are
  distinct outcomes of the model, never folded into an ordinary error.
* External components (AES-GCM, HKDF/HMAC, ECDSA, random numbers, CMMs, keyrings, KMS, clocks) are
  oracles: record or function arguments over which every theorem quantifies. Correctness of the
  primitive (e.g. decryption inverts encryption) is a hypothesis of only those theorems that need
  it, and each such hypothesis is shown satisfiable by an instance.
* Model files (`*Model.v`) contain definitions, `*Spec.v` independent specifications, `*Proofs.v`
  lemmas, `Prop_*.v` only the property theorems, their examples and `Print Assumptions`.

## Plan per property

* **C01** — HdrModel.v: `hdr_parse` (header.c 189-420) and `hdr_write`/`hdr_size` (436-575) as total functions over byte lists. Theorem by induction on EDK list and context list.
* **C02** — Same model; size lemmas for both directions, the parse direction for arbitrary input bytes.
* **C03** — Generic lemma: every parser primitive is prefix-monotone; composed for hdr_parse. Prefix of a parseable header gives SHORT_BUFFER.
* **C04** — hdr_parse with limit; session invariant for the encrypt side (try_gen_key check).
* **C05** — Independent predicate on bytes (`valid_header_bytes`) in the spec; parse success iff predicate.
* **C06** — EncCtxModel.v: a context is a duplicate-free association list (hash table iteration order = list order). serialize sorts by byte-lexicographic order.
* **C07** — Permutation invariance of serialize; injectivity via C06 round trip.
* **C08** — deserialize as total function returning (error, table).
* **C09** — clone modelled as the three loops of enc_ctx.c 202-257.
* **C10** — FrameModel.v: serde_* functions in read and write mode.
* **C11** — Prefix monotonicity as C03.
* **C12** — Lower bound is false for final frames shorter than 4 received bytes: `_refuted` with witness, plus the exact condition under which it holds as a positive theorem.
* **C13** — SessionModel.v full state machine with oracles for CMM, AEAD, KDF, signature. One-shot spec of the message (`msg_bytes`) and of its decryption; both streaming machines refine it.
* **C14** — Invariant: emitted bytes = prefix of msg_bytes determined by (seqno, state).
* **C15** — Invariant: consumed bytes determine state; released plaintext = concatenation of decrypted frames of the consumed prefix, defined by a one-shot recursive spec.
* **C16** — Ideal-AEAD hypothesis: decryption accepts (key,iv,aad,ct,tag) only if it is in the log of encryptions made by the encryption of the original message. Proof uses C54 and sequence-number invariant. Hypothesis shown satisfiable by an instance.
* **C17** — Ghost-free: in the model the state records header copy; theorem about every reachable state in body/done state: the AEAD oracle accepted the header tag.
* **C18** — Output memory is explicit in process model.
* **C19** — Invariant over operation lists.
* **C20** — abort() is a distinct outcome of change_state; invariant over operation lists. C `assert` in the policy check is a second distinct outcome.
* **C21** — Invariant with explicit mod 2^64 arithmetic.
* **C22** — Expected false: `_refuted` witnesses as operation lists.
* **C23** — Invariant on reachable encrypt states.
* **C24** — Invariant on reachable decrypt states.
* **C25** — The model of the AEAD calls produces a log of (key, iv); prove NoDup of IVs.
* **C26** — signctx modelled as transcript; invariant transcript = bytes emitted / consumed.
* **C27** — Reachability theorem with hypothesis on CMM (materials suite = request suite); refuted without it.
* **C28** — Direct from process theorem.
* **C29** — Fuelled loop with distinct out-of-fuel outcome; measure proof that it never occurs with the computed fuel.
* **C30** — Case analysis over the state at stop; known exceptions stated (NULL input pointer).
* **C31** — Direct on reset; frame size part refuted by decrypt-then-reset.
* **C32** — CacheModel.v: local cache as records with table, LRU list, heap (multiset), refcounts; invariant over op lists.
* **C33** — Same model with heap of entry objects and explicit use-after-free/double-free outcome.
* **C34** — Cache lookup processes expiries in batches of 8; model exactly, theorem about find result and caching-CMM TTL.
* **C35** — Ghost time stamps in the spec only.
* **C36** — CachingModel.v; sequential theorem, plus interleaving model for atomics; wrap-around refutation if reachable.
* **C37** — Identifier byte-string construction injective given injective hash oracle.
* **C38** — Expected false (`md_name` is the string "NULL", never a null pointer): `_refuted`.
* **C39** — KeyringModel.v, children as oracles.
* **C40** — Children as oracles; documented clause about errors refuted for wrong-length data keys, the rest proved.
* **C41** — Wrapper functions over arbitrary vtable oracles.
* **C42** — KeyringModel.v with keyring oracle.
* **C43** — KeyringModel.v with AES-GCM oracle.
* **C44** — Ideal-AEAD hypothesis + C07.
* **C45** — KeyringModel.v with RSA oracle.
* **C46** — KmsModel.v with KMS client oracle and call log.
* **C47** — Same model.
* **C48** — KmsModel.v: ARN parsing/splitting over character lists.
* **C49** — KmsModel.v with client oracle and call log.
* **C50** — KmsModel.v: duplicate search and builder.
* **C51** — KeyringModel.v with per-element clone-failure oracle.
* **C52** — SigModel.v: byte codec of the cached key, OpenSSL's key operations as oracles.
* **C53** — Injectivity of KDF inputs.
* **C54** — Injectivity of AAD bytes.
* **C55** — Interleaving model of atomic fetch_add/fetch_sub with owners.
* **C56** — Expected false: `_refuted`.
* **C57** — CachingModel.v with upstream and cache oracles.
* **C58** — KmsModel.v, MRK-aware OnEncrypt with call log.
* **C59** — KmsModel.v; hypothesis: KMS decrypts what is in the log of an encryption.
* **C60** — SigModel.v: the repeat loop of sign_finish over a stream of raw signatures.
* **C61** — SigModel.v: key generation, public key text, start of verification.
* **C62** — Lexicographic measure: bytes left, rank of the state, input estimate; a call stopped for want of room asks for the same again.
* **C63** — From the invariant behind C17 and C23; the fitness conditions restated per suite.
* **C64** — Second invariant relating the log of requests to the calls made since the last reset.
* **C65** — Same invariant, for the reported context and trace.
* **C66** — SuiteSpec.v decodes identifiers by their bytes; compared with the table of cipher.c for all numbers.
* **C67** — LiveSpec.v says what the helpers have to deliver and what fits; each step of an encryption is shown to go on, and with enough room to use up a potential (`need`, SessionLive.v).
* **C68** — HkdfModel.v: extract and expand over an HMAC oracle any call of which may fail, the output buffer explicit; HkdfSpec.v is RFC 5869. HkdfExamples.v has SHA-256 and runs the RFC's test cases.
* **C69** — BuildModel.v: the builders as sequences of the accesses of RefModel.v, with the point of failure as input.
* **C70** — StackSpec.v composes the session, the default CMM and the raw and multi-keyrings; C13, C42-C44, C48 and C67 are joined by showing that the hypotheses each makes about its neighbour hold of the modelled neighbour.
* **C71** — CacheHitSpec.v lists the reasons for removing an entry and says what an environment that works is; the invariant of CacheProofs.v gives the converse of C32 (what is in the cache is found), then the programs of CachingModel.v are followed step by step from such a state.
* **C72** — `configured` (CacheHitSpec.v) is what creation and any sequence of setters can produce; with these ranges the condition of C36 about wrap-around follows for sequential calls.
* **C73** — MemModel.v: every allocation, release and reference count on the paths that make, use and destroy keyrings, materials, headers, signature contexts and sessions; the answer to the n-th question (does this allocation fail, does this condition hold) comes from a `world` over which the theorems quantify, so all data and all failures are covered. MemLogic.v is a small separation logic, MemProofs.v gives each function a specification in it. Undefined behaviour (releasing or using a block that is not allocated) is a distinct outcome.
* **C74** — The same model: blocks carry a flag "holds key material", giving back a flagged block is recorded with its place.
* **C75** — ClientModel.v: the KMS operations and builders as programs whose steps (a lookup, an insertion, a new client, a request) interleave between threads; ClientSpec.v says which client may be used. The programs are shown to give the results of KmsModel.v, so C46-C50, C58 and C59 hold of them, and the builders to make the keyrings that the builders of KmsModel.v and BuildModel.v make.
* **C76** — CacheStackSpec.v puts the caching CMM and the cache between the session and the default CMM of C70. The answers a session gets are whatever calls in executions as in C57 return; CacheStackProofs.v shows with C57 (transparency) that each is as good as an answer of the default CMM for the same or an equivalent request, and that keyrings unwrap from any order of the encrypted data keys.
* **C77** — TreeSpec.v has trees of keyrings: multi-keyrings of any depth whose leaves are the raw, KMS and MRK-aware KMS keyrings of the other properties, with no new model code. `fair` says that a reader's leaf opens nothing of a writer's leaf wrongly, `able` that it opens something; both are stated with the eligibility rules of C46 and C58 and the address rules of C70, not with the loops of the code. TreeProofs.v goes by induction on the tree, with one lemma per kind of leaf.
* **C78** — TraceSpec.v says which records a tree should leave, from the keys of its leaves alone (`wrap_records`, `unwrap_record`), and what it means that a leaf opens an EDK (`unwraps`); TraceProofs.v follows the trees of C77. Expected false where KMS decrypts to nothing, because a zero-length copy counts as success.
* **C79** — LocalMemModel.v continues MemModel.v with local_cache.c and the two methods of caching_cmm.c: entries with their blocks and counts, the hash table, the queue, the mutex (locked or not), handles, hashing, the copies of materials in and out. A client is a list of operations on a caching CMM, its cache, and the entries and materials it holds; it runs in one thread and gives up its entries before the cache (destroying a cache with entries held is misuse). A failed assertion, a mutex locked twice and a use of released memory are undefined outcomes of the run. LocalMemLogic.v says which blocks belong to an entry, the cache and the client.
* **C80** — CipherModel.v has the EVP calls of cipher.c one by one, with OpenSSL's thread state (calls made, error queue, live contexts); any call may fail, with or without error codes. A context is a record that EVP_CipherInit_ex, the GCM controls, EVP_CipherUpdate and the Final calls change; lengths become ints where the code passes a size_t for one; writing past a buffer, reading past an input and freeing a context that is not there are undefined behaviour. AES-GCM itself is a key stream and a tag function (`gcm`). CipherSpec.v says with those two what a sealed text is; CipherProofs.v is a weakest-precondition calculus over the calls. CipherTop.v also shows that the one-step functions of CryptoModel.v and KeyringModel.v, on which C21-C30, C44, C70 and others rest, give the results of these call sequences. Expected false for headers whose length does not fit an int and for unknown frame types.
* **C81** — AsymModel.v does the same for RSA wrapping (cipher.c) and for the HKDF of OpenSSL 1.1 and later (hkdf.c): EVP_PKEY, BIO and EVP_PKEY_CTX objects have addresses, contexts remember their key, padding and hashes, any call may fail, and memory is recorded as it was when given back. RSA, the reading of PEM and HKDF are oracles (`asym`). AsymSpec.v says what a wrapped text is; AsymTop.v connects to the one-step RSA of KeyringModel.v, the HKDF of CryptoModel.v and the library's own HKDF of C68. Expected false for PEM strings and salts whose length does not fit an int.
* **C82** — RealCrypto.v has AES, GCM, SHA-384, SHA-512 and HMAC as functions over numbers and bytes, checked against the examples of their standards, and from them an instance `real_cr` of the oracles of CryptoModel.v; RealProofs.v shows that it has the properties assumed elsewhere. VectorData.v copies test messages of /repo and models the keyrings and main programs of the tests that read them. The theorems run the session model on them, through the default CMM and, for two files, the raw AES keyring; and have it write messages again that the Encryption SDKs for C, Java, JavaScript and Python wrote. Verification and making of signatures remain oracles. 13 of the 46 messages of t_commitment_vectors.inc are used, to keep coqchk, which has no virtual machine, within minutes.
* **C83** — LocalModel.v repeats the functions that keep a key in a local array or temporary (own HKDF, try_gen_key, derive_data_key, reading and writing private keys) with the contents of those arrays when the function returns; failing calls may leave anything in them. The theorems tie each to the function modelled before and say that the arrays are zero in their whole length. Expected false for derive_data_key of session_decrypt.c: `_refuted`, with a theorem that every success leaves the key.
* **C84** — UnitData.v has known answers of the unit tests (key derivation for every suite, frames, headers, HKDF, raw AES keyring), UnitProofs.v runs the model functions with `real_cr` on them; the proofs are computations. What the tests do with flipped bits and random keys is not repeated: round trips are covered by general theorems, and forgery is outside the model.
* **C85** — KnownData.v has the cache ids of unit/t_caching_cmm.c, the headers of unit/t_header.c and the contexts of unit/t_enc_ctx.c, with `partition_id`, a model of hash_or_generate_partition_id (caching_cmm.c 68-99; the random branch takes the random id as an argument). KnownProofs.v runs the models of cache ids (with SHA-512 as a function), headers and contexts on them; that what follows a header does not matter, and the order of the pairs, comes from general lemmas.

## Files

| Files | Content |
|---|---|
| Base, AlgModel, EncCtxModel, HdrModel, FrameModel | codecs: integers, algorithm table, encryption context, header, frames |
| CryptoModel, SessionModel | key derivation, header and body encryption over oracles; the session state machine |
| KeyringModel | lists of EDKs and trace records, keyring interface, multi-keyring, raw AES and RSA keyrings, default CMM |
| CacheModel, CachingModel | local materials cache; caching CMM as interleavable programs |
| KmsModel | ARNs and identifiers, discovery filter, KMS keyring, MRK-aware keyring, their builders |
| SigModel | cached signing keys, public key text, signing and verification contexts |
| HkdfModel | the library's own HKDF |
| ClientModel | KMS clients, their suppliers and the builders' choice of them, threads interleaved |
| BuildModel | references taken by the MRK multi-keyring builders; discovery multi-keyring |
| RefModel | reference counts of CMMs, keyrings, caches and sessions, threads interleaved |
| MemModel, MemLogic | ownership of memory: blocks, reference counts, erasure; a separation logic for it |
| LocalMemModel, LocalMemLogic | the same for the local cache and the methods of the caching CMM |
| CipherModel | the OpenSSL calls of cipher.c for headers, bodies, data keys and random bytes |
| AsymModel | the OpenSSL calls of RSA wrapping and of HKDF |
| RealCrypto | AES-GCM, SHA-384, SHA-512, HMAC: an instance of the oracles, not a model of code in /repo |
| LocalModel | local arrays and temporaries with keys, at the return of the functions |
| VectorData | test messages of /repo; keyrings and main programs of its tests |
| UnitData | known answers of the unit tests of /repo |
| KnownData | known cache ids, headers and encryption contexts of the unit tests of /repo; partition id |
| WireSpec, SessionSpec, StreamSpec, KeyringSpec, CacheSpec, CachingSpec, KmsSpec, SigSpec, RefSpec, ProgressSpec, ReportSpec, SuiteSpec, LiveSpec, HkdfSpec, BuildSpec, StackSpec, CacheHitSpec, MemSpec, ClientSpec, CacheStackSpec, CipherSpec, AsymSpec, LocalSpec | specifications, independent of the models' helpers |
| *Proofs, *Theorems, Session*, Caching*, Stack*, CacheHit, CacheConf, MemTop, CipherTop, CipherLong, AsymTop, AsymLong, ClientBuild | lemmas |
| *Examples | concrete data for examples and refutations |
| Prop_* | the property theorems, their examples, `Print Assumptions` |

## What is modelled

| Source | Modelled | Not modelled |
|---|---|---|
| source/header.c | all parsing, writing, sizing; init, clear, clean_up (MemModel) | - |
| source/enc_ctx.c, utils.c | size, serialize, deserialize, clone, comparison | hash table internals; allocation failure only in MemModel |
| source/framefmt.c | all | - |
| source/cipher.c | algorithm table 33-254, key derivation, header and body encryption, wrapping (831-1061); the sequences of OpenSSL calls of 435-948 (CipherModel) and 950-1061 (AsymModel) | - |
| source/hkdf.c | own HKDF (46-120, 162-181), with its local arrays (LocalModel); the calls of OpenSSL's HKDF (122-181, AsymModel) | - |
| source/session*.c | all processing, setters, reset, getters; creation, destruction and allocation failure in MemModel | - |
| source/cipher_openssl.c | signing and verification contexts, key generation, key (de)serialization (203-996); digests, AEAD and RSA as oracles | OpenSSL itself (its objects are single blocks in MemModel) |
| source/list_utils.c, edk.c, keyring_trace.c | copy, transfer, clone, trace records; clear, init, clean_up (MemModel) | - |
| source/materials.c, multi_keyring.c, raw_*_keyring.c, default_cmm.c | all methods; construction and destruction (MemModel) | - |
| source/local_cache.c | all; creation, destruction and ownership of blocks in LocalMemModel | hash table, list and priority queue internals |
| source/caching_cmm.c | both methods, id computation, partition id (KnownData), setters; construction and destruction (MemModel); ownership of the blocks while the methods run (LocalMemModel) | - |
| include/aws/cryptosdk/materials.h, cache.h | retain, release, reference counts and the destructors' releases, add_child | weak memory: the model is sequentially consistent |
| aws-encryption-sdk-cpp: cpputils.cpp | region, ARN and identifier functions, EDK and data key copies | logging, conversions of contexts |
| aws-encryption-sdk-cpp: kms_keyring.cpp, kms_mrk_keyring.cpp | OnEncrypt, OnDecrypt, discovery filter, builders, both MRK multi-keyring builders and the references they take, client suppliers and their cache (ClientModel); what the methods allocate with the C allocator and their use of its lists (MemModel) | user agent and timeouts; the memory of C++ containers, strings and requests, exceptions |

From tests/ only what C82, C84 and C85 need is modelled: the stub keyring and test_one of unit/t_commitment.c, lib/zero_keyring.c (decryption), decrypt.c, and the
vectors of unit/t_cipher.c, unit/t_hkdf.c, unit/t_raw_aes_keyring_decrypt.c, lib/raw_aes_keyring_test_vectors.c,
unit/t_caching_cmm.c, unit/t_header.c, unit/t_enc_ctx.c and unit/t_raw_aes_keyring_provider_info.c.

Each model file's header comment lists its simplifications; each definition cites file and lines.

## Oracles

External code is a parameter of the theorems: AES-GCM, HKDF, ECDSA, SHA-512, RSA (`crypto`, `sigio`, `sha`, ...), the CMM and
keyring under a session, the random generator, memory allocation where its failure matters, the clock, mutex locking, the upstream CMM
of a caching CMM, KMS and the client suppliers (`kms_env`; a keyring's calls and their answers are logged). Hypotheses used, always of single theorems and always with an instance satisfying them:

* sizes: ciphertext has the length of the plaintext, tags 16 bytes (`crypto_sizes`);
* C13: decryption inverts encryption, the verification key accepts signatures of the signing key, EDK fields fit 16 bits;
* C16, C44: an accepted tag was made by the encrypting party (ideal AEAD);
* C37, C57: SHA-512 yields 64 bytes and does not collide on the strings hashed;
* C59: KMS decrypts what it encrypted in the logged calls, under the same context, and names the key used;
* C52, C60, C61: the elliptic-curve encodings invert each other, points have the length of their curve (`ec_sane`), a produced signature verifies (`ecdsa_sane`); fault switches (`sig_faults`) let any OpenSSL call fail;
* C70: primitives and RSA produce bytes (`crypto_bytes`, `rsa_bytes`), RSA ciphertexts fit 16 bits, a key pair inverts (`rsa_pair`), what is signed verifies with the public key from the context (`signing_works`); for success also that randomness, primitives and signing work;
* C76: as C70 (without the success of signing etc.), and of the caches: no hash collisions among the requests of an execution, partition ids of 64 bytes, rebuilt signature keys equal to the serialised ones (`same_keys`), fresh signature contexts without data (`new_contexts`);
* C77: as C70, and of KMS: names and ciphertexts fit into a header, generated keys have the length asked for (`sane_kms`), what was wrapped through one client is unwrapped through another rightly or not at all (`truthful`), and in one place it is unwrapped (`serves`); raw keyrings do not have the namespace "aws-kms", which their constructors reject;
* C78: on unwrapping, KMS does not decrypt to an empty plaintext (`solid`); on failed wrapping, generated keys have the length asked for;
* C68: HMACs of a hash have its length (`hmac_sane`);
* C27: the CMM returns materials for the suite of the header;
* C71: the application's environment works during the calls that must hit (`smooth`), and signature keys can be saved and reloaded; equal requests are made one after the other, each returning before the next begins, and no other call intervenes;
* the hypotheses on AES-GCM, HMAC and HKDF (`gcm_wf`, `gcm_bytes`, `hmac_sane`, `crypto_sizes`, `crypto_bytes`, `dec_inverts`, `crypto_works`) hold together for the real algorithms (C82_real_algorithms);
* C32-C36: callers use only handles they hold (the caching CMM is proved to).

## Results that are false, or true only with a proviso

Refuted (a theorem `..._refuted` gives the witness):

* **C02** the size function returns `int`: for headers of 2^31 bytes or more it is wrong.
* **C12** the "short buffer" size hint is not a lower bound for final frames of which fewer than four bytes have arrived.
* **C20** an invalid commitment policy reaches an `assert` (debug builds); abort() is never reached.
* **C22** the message bound is not enforced while streaming; set_message_size accepts a size below what was already consumed.
* **C27** without the condition on the CMM a message whose header names a signing suite is accepted: only the suite of the materials is checked.
* **C28** process_full leaves the output buffer as it was when set_message_size refuses.
* **C30** with a NULL input pointer an empty final frame is never written, whatever the room; an unframed message of undeclared size has estimates of zero and waits for set_message_size.
* **C31** reset keeps the frame size of the message just decrypted.
* **C34** a lookup can return an expired entry: only eight expired entries are removed per operation; a failed push to the expiry queue loses the expiry time. The caching CMM checks the age itself, so it never serves such an entry.
* **C36** two concurrent calls with the default limits make the byte counter wrap around; so does a single-threaded caller if locking the mutex fails once.
* **C38** materials of suites without key derivation are cached: their digest name is the string "NULL", not a null pointer.
* **C39/C51** a list that fails to grow in the middle of a transfer keeps the elements already moved, so they are in both lists.
* **C40** a member that fails but leaves a data key of the wrong length ends the search.
* **C41** a keyring can change the bytes of an existing data key.
* **C43/C45** with an empty namespace (or RSA key name) the keyring never unwraps what it wrapped: decryption skips EDKs with an empty provider id or info.
* **C47** EDKs already transferred stay when the caller's list fails to grow; an empty data key from KMS goes unnoticed.
* **C48** a resource such as `key//mrk-1` is taken for a multi-Region key although its id starts with a slash.
* **C49** with an unknown suite the MRK-aware keyring dereferences NULL (not reachable from a session).
* **C49** BuildDiscovery without a filter does not check the region (kms_mrk_keyring.cpp 660): with an empty one the keyring asks for keys whose ARN has no region.
* **C50** the split of an ARN resource stops at the byte 255, so ids that differ after it count as duplicates.
* **C52** reloading does not check that the private key belongs to the public key.
* **C53** the commitment value does not name the suite.
* **C55** a failed aws_cryptosdk_multi_keyring_add_child leaks a reference on the child; a multi-keyring added to itself is never destroyed.
* **C56** EDK fields over 65535 bytes are truncated in the header instead of refused.
* **C57** when reloading the cached signing key fails, the cached public key stays in the encryption context passed to the upstream CMM, and the default CMM refuses it.
* **C60** the loop in sign_finish has no bound: it ends only when a signature of the expected length turns up.
* **C65** the context reported while decrypting need not be authentic: it is reported once the CMM has answered, also when the header tag then fails to verify.
* **C67** an unframed message of exactly MAX_UNFRAMED_PLAINTEXT_SIZE bytes is refused (framefmt.c 209 uses >=, 313 uses >).
* **C69** a successful build of an MRK-aware multi-keyring (either builder) leaks every keyring in it: multi_keyring_new and add_child take
  references of their own and the builder never gives back its first ones (kms_mrk_keyring.cpp 879, 961).
* **C73** failures that are not cleaned up: a list that cannot grow in aws_cryptosdk_transfer_list makes the EDKs or trace records already
  moved belong to both lists, so they are released twice (five EDKs suffice); five leaks, of the EDK just parsed (header.c ignores the result
  of aws_array_list_push_back), of the public PEM string (raw_rsa_keyring.c 204), of the child of a multi-keyring, of a BIGNUM (cipher_openssl.c
  934-940) and of the partition id (caching_cmm.c 181). ListRaii, with which the KMS keyrings guard their list of EDKs, does not initialise its
  flag `initialized` (cpputils.h 115): if the list cannot be made, the destructor reads an indeterminate value.
* **C74** four places give back key material as it is: raw_aes_keyring.c 173, raw_rsa_keyring.c 95 and kms_keyring.cpp 298 (kms_mrk_keyring.cpp
  605) after a failure, session_decrypt.c 80 (the stack copy of the data key) always.
* **C78** a KMS that decrypts to an empty plaintext makes the KMS keyring record a decryption although there is no data key (kms_keyring.cpp
  134-146).
* **C75** BuildClientSupplier calls `report_success` for a keyring with one key before any request is made (kms_keyring.cpp 382): a client
  that never worked is kept; and if the supplier returned a null pointer for the region, as it may, without setting the callable, an empty
  std::function is called. Two threads can each make a client for a region; the later one replaces the earlier.
* **C79** hash_enc_request loses the first hash context if the second cannot be made (caching_cmm.c 275-277); hash_dec_request releases a hash
  context again that md_finish has released, if an EDK cannot be hashed (caching_cmm.c 409-441); if the mutex cannot be locked, release_entry
  loses a reference on the entry (local_cache.c 832, admitted there in a comment) and clear_cache leaves all key material in the cache without
  telling (local_cache.c 871).
* **C80** sign_header and verify_header pass header->len, a size_t, as the int that EVP_EncryptUpdate and EVP_DecryptUpdate take (cipher.c 549,
  602): of a header of 2^32+1 bytes one byte is authenticated. Such headers can be written and parsed (65535 EDKs of up to 196611 bytes).
  update_frame_aad returns AWS_OP_ERR, which is not 0, for an unknown frame type (cipher.c 627), and its callers take everything but 0 for
  success: encrypt_body then seals without additional data. No caller in the library passes such a type.
  What the two functions do with headers of every length is proved: if the length modulo 2^32 is 2^31 or more they fail.
  aws_cryptosdk_aes_gcm_encrypt passes its text the same way: of a text of 2^32+1 bytes one byte is encrypted, and the assertion in line 879
  fails (C80_long_text_refuted; with NDEBUG the function would report success). So does the one in line 937 when such a text is decrypted with
  the tag of its first byte (C80_long_ciphertext_refuted). Data keys, its only texts in the library, are 32 bytes at most.
* **C81** the length of a PEM string goes to BIO_new_mem_buf as an int (cipher.c 978, 1029), and that of the salt, the input key and the info
  to EVP_PKEY_CTX_set1_hkdf_salt etc. (hkdf.c 147-149): of 2^32+1 bytes one is used. The library's own calls of HKDF have short arguments.
  If EVP_PKEY_CTX_new_id fails, HKDF leaves the output buffer as it is instead of zeroing it; it never empties OpenSSL's error queue.
  What happens for every length is proved: of a PEM string whose length modulo 2^32 is 2^31 or more, the part before the first NUL is read;
  a salt, key or info of such a length makes HKDF fail.
* **C83** derive_data_key (session_decrypt.c 67-100) copies the data key into a local array and returns without wiping it, on success and on
  every error after line 81; its counterpart try_gen_key (session_encrypt.c 147) wipes its copy. The key stays on the stack until it is
  overwritten. Copies made by the compiler, and memory inside OpenSSL, are outside the model.

Provisos: C16 needs the decrypted header to name a suite of the same message format; C13 needs representable EDKs.

Observations made while modelling, without a theorem: setting an
invalid policy in the middle of a message does not fail the session; HKDF failure during decryption raises error -1; the
caching id omits the commitment policy; a failure of the default CMM after adding the public key leaves it in the request's
context; local_cache.c reads `zombie` and `expiry_time` without the lock (a C11 data race); destroying a cache with
outstanding handles frees entries in use; key
names in its trace records end at the first NUL; an MRK-aware generator may be a bare key id (the client supplier is then asked
for the empty region), a child may not; load_pubkey does not check how much of its input o2i consumed (OpenSSL consumes all
of it); the assertions on reference
counts vanish in release builds.

## Trusted base

* The Coq 8.16.1 kernel and its standard library. No axioms: `Print Assumptions` beneath every property theorem prints "Closed under
  the global context". (mathcomp's ssreflect plugin is loaded by nothing here; a library-wide listing shows
  `Coq.ssr.ssrunder.Under_rel`, an opaque module of the standard library on which no theorem depends.)
* The reading of the C/C++ sources cited in each definition's comment.
* aws-c-common, OpenSSL and the AWS SDK for C++ are not in /repo; their documented semantics are modelled where needed: byte cursors and
  buffers, hash table as finite map, array list, linked list, priority queue, mutex, atomics; `Aws::Utils::ARN` (split at colons, at
  least six parts, the first being `arn`), `StringUtils::Split` (as used here: drops empty parts, stops at byte 255), `Aws::Map`.
* Memory allocation is assumed to succeed except in MemModel.v and where a failure oracle is explicit.
* MemModel.v abstracts from the contents of memory: a condition that depends on data may go either way. Its theorems therefore cover more
  runs than the library has; the witnesses of the refutations were compared with the sources. Each client there holds one reference on
  each keyring and gives it up after use; one keyring in two places of the same multi-keyring is covered by C55 only.
