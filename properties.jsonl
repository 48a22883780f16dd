{"id": "C01", "title": "Message header written by the SDK parses back to itself", "statement": "Serialising any representable message header and parsing the resulting bytes, followed by arbitrary further bytes, succeeds, yields the same algorithm, message id, encryption context, encrypted data keys, frame length, suite data, IV and tag, and consumes exactly the bytes that were written.", "quantifier": "every header value whose fields fit the wire format (any algorithm suite, any context up to 64KiB, any number of EDKs up to 65535 of any length up to 65535), every trailing byte string, every EDK limit that admits it", "why_tests_cant": "the space of headers (contexts, EDK lists, lengths at 16-bit boundaries) is unbounded; tests use a handful of fixed vectors", "anchors": ["source/header.c: aws_cryptosdk_hdr_parse, aws_cryptosdk_hdr_write, aws_cryptosdk_hdr_size", "source/enc_ctx.c"]}
{"id": "C02", "title": "The computed header size is exactly what is written and what is consumed", "statement": "Whenever a header is written successfully the number of bytes produced equals the size computed in advance, and whenever a byte string parses as a header the number of bytes consumed equals the size computed from the parsed header, so the header copy kept for authentication is exactly the bytes received.", "quantifier": "every header and every input byte string whose serialised form is below 2^31 bytes (the size is returned as an int; for larger headers the statement is refuted)", "why_tests_cant": "off-by-one in one field only shows for particular field combinations; the equality ranges over all parseable byte strings including hostile ones", "anchors": ["source/header.c: aws_cryptosdk_hdr_size, aws_cryptosdk_hdr_write, aws_cryptosdk_hdr_parse", "source/session_decrypt.c: aws_cryptosdk_priv_try_parse_header"]}
{"id": "C03", "title": "Header parsing is stable under streaming", "statement": "If a byte string parses as a header (or is rejected as malformed or over limit), then every extension of it gives the identical verdict; a short-buffer verdict consumes nothing; and every proper prefix of a parseable header is reported as short rather than malformed.", "quantifier": "every byte string, every extension and every split point", "why_tests_cant": "requires all prefixes of all messages; a parser that mis-reports one truncation point as corruption breaks streaming only there", "anchors": ["source/header.c: aws_cryptosdk_hdr_parse", "source/session_decrypt.c: aws_cryptosdk_priv_try_parse_header"]}
{"id": "C04", "title": "The EDK limit is enforced on both paths", "statement": "With a maximum number of encrypted data keys configured, decryption never accepts a header carrying more than the maximum (it is rejected with LIMIT_EXCEEDED before any encrypted data key is read), and encryption never emits a header carrying more; without a maximum there is no such rejection.", "quantifier": "every limit, every header byte string, every CMM behaviour", "why_tests_cant": "needs all counts against all limits, including hostile counts with truncated bodies", "anchors": ["source/header.c: parse_edks / aws_cryptosdk_hdr_parse", "source/session.c: aws_cryptosdk_session_set_max_encrypted_data_keys", "source/session_encrypt.c: aws_cryptosdk_priv_try_gen_key"]}
{"id": "C05", "title": "Only structurally consistent headers are accepted", "statement": "A header that parses names a known algorithm suite whose message-format version equals the header version, has at least one EDK, a content type consistent with the frame length (framed iff non-zero), the 12-byte IV length and zero reserved field in version 1, and suite data of the length the algorithm prescribes; every other header is rejected.", "quantifier": "every byte string", "why_tests_cant": "rejection must hold for all malformed strings", "anchors": ["source/header.c: aws_cryptosdk_hdr_parse", "source/cipher.c: aws_cryptosdk_alg_props"]}
{"id": "C06", "title": "Encryption context serialisation round-trips", "statement": "Serialising any encryption context that the size function accepts and deserialising the bytes gives the same mapping; the serialised length equals the size computed in advance; contexts that do not fit 65535 bytes are refused with LIMIT_EXCEEDED.", "quantifier": "every finite string-to-string mapping", "why_tests_cant": "unbounded space of mappings and lengths", "anchors": ["source/enc_ctx.c: aws_cryptosdk_enc_ctx_size, aws_cryptosdk_enc_ctx_serialize, aws_cryptosdk_enc_ctx_deserialize"]}
{"id": "C07", "title": "Encryption context serialisation is canonical and injective", "statement": "The serialised bytes depend only on the mapping, not on insertion or hash-table iteration order, and two different encryption contexts never serialise to the same bytes, so authenticating the bytes authenticates the context.", "quantifier": "every pair of mappings and every iteration order of the table", "why_tests_cant": "injectivity and order independence quantify over pairs of unbounded values", "anchors": ["source/enc_ctx.c: aws_cryptosdk_enc_ctx_serialize"]}
{"id": "C08", "title": "Encryption context deserialisation rejects ambiguity and leaves no residue", "statement": "Deserialisation accepts only inputs with a non-zero pair count and pairwise distinct keys, reports truncation as SHORT_BUFFER, and on any failure leaves the destination table empty whatever it held before.", "quantifier": "every byte string and every previous table content", "why_tests_cant": "hostile inputs are unbounded", "anchors": ["source/enc_ctx.c: aws_cryptosdk_enc_ctx_deserialize"]}
{"id": "C09", "title": "Cloning an encryption context makes the destination equal to the source", "statement": "After a successful clone the destination holds exactly the source's pairs, whatever it held before, and the source is unchanged.", "quantifier": "every source and destination mapping", "why_tests_cant": "all overlaps of key sets must be covered", "anchors": ["source/enc_ctx.c: aws_cryptosdk_enc_ctx_clone"]}
{"id": "C10", "title": "Frames written by the SDK parse back to themselves", "statement": "Writing any frame (intermediate, final or single) and parsing the bytes, followed by arbitrary further bytes, gives back type, sequence number, IV, ciphertext and tag and consumes exactly the reported size; buffers one byte smaller give SHORT_BUFFER and no output.", "quantifier": "every frame type, sequence number, frame size, plaintext size within limits, contents and trailing bytes", "why_tests_cant": "boundaries at 2^32 and 2^36 and all sizes in between cannot be enumerated", "anchors": ["source/framefmt.c: aws_cryptosdk_serialize_frame, aws_cryptosdk_deserialize_frame"]}
{"id": "C11", "title": "Frame parsing is stable under streaming", "statement": "If a byte string parses as a frame, or is rejected, every extension of it gives the identical result; SHORT_BUFFER is only reported when the complete frame has not arrived, and never consumes input.", "quantifier": "every byte string, frame size and extension", "why_tests_cant": "all split points of all frames", "anchors": ["source/framefmt.c: aws_cryptosdk_deserialize_frame"]}
{"id": "C12", "title": "The ciphertext size reported on a short buffer is a lower bound", "statement": "When frame parsing reports SHORT_BUFFER, the reported ciphertext size never exceeds the size of the frame that eventually arrives (as the interface documentation promises), so a caller supplying exactly the estimate never over-waits.", "quantifier": "every frame and every proper prefix of it", "why_tests_cant": "needs all prefixes of all frames", "anchors": ["source/framefmt.c: aws_cryptosdk_deserialize_frame", "include/aws/cryptosdk/private/framefmt.h"]}
{"id": "C13", "title": "Encrypt then decrypt returns the plaintext under any buffering", "statement": "If an encryption session is driven to completion over a plaintext with any sequence of input chunks, output buffer sizes and repeated calls, and the concatenated output is fed to a decryption session with the matching key, in any sequence of chunks and output buffer sizes driven to completion, the released plaintext is the original and both sessions report done; decryption never reports an error.", "quantifier": "every plaintext, frame size (including unframed), algorithm suite, encryption context, EDK list, chunking on both sides, point at which the message size is declared", "why_tests_cant": "chunkings and sizes are unbounded; tests use a few step sizes", "anchors": ["source/session.c: aws_cryptosdk_session_process", "source/session_encrypt.c", "source/session_decrypt.c"]}
{"id": "C14", "title": "Ciphertext does not depend on how the caller buffers", "statement": "Given the same materials, message id and signature, the concatenated output of an encryption session depends only on the plaintext, frame size and encryption context, not on call boundaries, output buffer sizes, or when the message size was declared; at every moment the output so far is a prefix of that message.", "quantifier": "every plaintext and every schedule of process calls", "why_tests_cant": "all schedules", "anchors": ["source/session_encrypt.c: aws_cryptosdk_priv_try_encrypt_body", "source/session.c: aws_cryptosdk_session_process"]}
{"id": "C15", "title": "Decryption result does not depend on how the caller buffers", "statement": "For any input byte stream, valid or not, the plaintext released over a sequence of successful process calls is a prefix of a stream determined by the input bytes and the materials alone, and a session that reports done released exactly that stream.", "quantifier": "every input stream, every chunking and output buffer schedule", "why_tests_cant": "all schedules and all corrupt streams", "anchors": ["source/session_decrypt.c", "source/session.c: aws_cryptosdk_session_process"]}
{"id": "C16", "title": "Tampered messages never yield tampered plaintext", "statement": "If authenticated decryption accepts only what was produced under the message's content key, then for any attacker-supplied byte stream decrypted under that key the plaintext released is always a prefix of the original plaintext, at frame boundaries, and a session that reports done released all of it: frames cannot be reordered, duplicated, dropped, truncated, spliced between messages or re-labelled.", "quantifier": "every attacker byte stream and chunking, every original message", "why_tests_cant": "attacker streams are unbounded; tests flip a few bytes", "anchors": ["source/session_decrypt.c: aws_cryptosdk_priv_try_decrypt_body", "source/cipher.c: aws_cryptosdk_decrypt_body, update_frame_aad"]}
{"id": "C17", "title": "The whole header is authenticated before any plaintext is released", "statement": "Whenever plaintext has been released or the session is done, the header authentication tag verified under the derived content key over every header byte that precedes it, so algorithm, message id, encryption context, EDKs, content type and frame length are those that were authenticated.", "quantifier": "every input stream, chunking and CMM behaviour", "why_tests_cant": "all streams and schedules", "anchors": ["source/session_decrypt.c: validate_header, aws_cryptosdk_priv_unwrap_keys", "source/cipher.c: aws_cryptosdk_verify_header"]}
{"id": "C18", "title": "No output survives an error", "statement": "When a process call fails, the reported number of bytes written is zero and every byte of the caller's output buffer is zero.", "quantifier": "every session state, input, output buffer and CMM/crypto failure point", "why_tests_cant": "all failure points in all states", "anchors": ["source/session.c: aws_cryptosdk_session_process, aws_cryptosdk_session_process_full"]}
{"id": "C19", "title": "Errors are sticky", "statement": "Once a process call has failed the session never processes data again until reset: every later process call fails with the same error, produces nothing, and consumes nothing, whatever other session calls are made in between.", "quantifier": "every history of API calls", "why_tests_cant": "all call histories", "anchors": ["source/session.c: aws_cryptosdk_session_process, aws_cryptosdk_priv_fail_session"]}
{"id": "C20", "title": "No call sequence aborts the process", "statement": "No sequence of session API calls with any arguments, input bytes and CMM behaviour makes the library call abort() through its internal state-transition checks.", "quantifier": "every finite sequence of API calls", "why_tests_cant": "all histories", "anchors": ["source/session.c: aws_cryptosdk_priv_session_change_state"]}
{"id": "C21", "title": "A finished encryption encrypted exactly the declared number of bytes", "statement": "If an encryption session reports done, a message size was declared, the total input consumed equals it, and it does not exceed any bound that was set.", "quantifier": "every history of API calls, including sizes declared late and 64-bit extremes", "why_tests_cant": "histories and 64-bit arithmetic wrap-around", "anchors": ["source/session.c: aws_cryptosdk_session_set_message_size, aws_cryptosdk_session_set_message_bound", "source/session_encrypt.c: aws_cryptosdk_priv_try_encrypt_body"]}
{"id": "C22", "title": "Declared sizes are enforced as documented while streaming", "statement": "As documented, a session to which more than the message bound has been written, or whose declared size is smaller than what was already processed, is put into an error state.", "quantifier": "every history of API calls", "why_tests_cant": "all interleavings of declaring and processing", "anchors": ["include/aws/cryptosdk/session.h: aws_cryptosdk_session_set_message_size, aws_cryptosdk_session_set_message_bound"]}
{"id": "C23", "title": "Commitment policy is enforced when encrypting", "statement": "A session never emits any byte of a message whose algorithm suite is not allowed for encryption by the session's commitment policy; under the two requiring policies every message emitted carries a key commitment derived from its data key.", "quantifier": "every CMM behaviour and call history", "why_tests_cant": "CMM may return any suite; all histories including policy changes mid-message", "anchors": ["source/session.c: aws_cryptosdk_priv_algorithm_allowed_for_encrypt", "source/session_encrypt.c: aws_cryptosdk_priv_try_gen_key"]}
{"id": "C24", "title": "Commitment policy is enforced when decrypting", "statement": "Under the require-decrypt policy a session never releases plaintext from, or reports done on, a message without key commitment; and for every committing suite plaintext is only released if the commitment stored in the header equals the one derived from the unwrapped data key and message id.", "quantifier": "every input stream, CMM behaviour and call history", "why_tests_cant": "all histories", "anchors": ["source/session_decrypt.c: derive_data_key", "source/cipher.c: aws_cryptosdk_private_commitment_eq"]}
{"id": "C25", "title": "No nonce is reused under a message's content key", "statement": "Within one message, every authenticated encryption performed under the content key (header and all frames) uses a different initialisation vector, for every message length up to the point where the SDK refuses to continue.", "quantifier": "every encryption run of any length and schedule", "why_tests_cant": "counter wrap-around only shows after 2^32 frames", "anchors": ["source/cipher.c: aws_cryptosdk_encrypt_body, aws_cryptosdk_sign_header", "source/session_encrypt.c"]}
{"id": "C26", "title": "The trailing signature covers exactly the message", "statement": "For signed suites the bytes given to the signer are exactly all bytes emitted before the trailer, and a decryption session reports done only if the verifier accepted the received signature over exactly all bytes consumed before the trailer.", "quantifier": "every message, schedule and attacker stream", "why_tests_cant": "all schedules including rollbacks when output space is short", "anchors": ["source/session_encrypt.c: aws_cryptosdk_priv_write_trailer", "source/session_decrypt.c: aws_cryptosdk_priv_check_trailer"]}
{"id": "C27", "title": "Unsigned-only decryption refuses signed messages", "statement": "In decrypt-unsigned mode with a CMM that returns materials for the requested suite, no plaintext is ever released from a message whose suite is signed.", "quantifier": "every input stream, schedule", "why_tests_cant": "all streams and schedules", "anchors": ["source/session_decrypt.c: aws_cryptosdk_priv_unwrap_keys"]}
{"id": "C28", "title": "process_full is all-or-nothing", "statement": "process_full returns success only if the complete message was processed and all input consumed; otherwise it reports zero bytes written and a zeroed output buffer and leaves the session failed.", "quantifier": "every input, output capacity and session configuration", "why_tests_cant": "all inputs and capacities", "anchors": ["source/session.c: aws_cryptosdk_session_process_full"]}
{"id": "C29", "title": "process terminates and stays within its buffers", "statement": "Every process call terminates, never reports more bytes read than supplied or more bytes written than the output buffer holds, and reports no more output than the buffer's capacity.", "quantifier": "every session state, input and capacity", "why_tests_cant": "termination and bounds are universal", "anchors": ["source/session.c: aws_cryptosdk_session_process"]}
{"id": "C30", "title": "Supplying the estimated buffers guarantees progress", "statement": "After a successful process call that did not finish the message, a further call with at least the estimated output space and at least the estimated input makes progress (consumes input, produces output, changes what is needed, or fails).", "quantifier": "every reachable session state and continuation of the input", "why_tests_cant": "all states", "anchors": ["source/session.c: aws_cryptosdk_session_estimate_buf", "source/session_encrypt.c", "source/session_decrypt.c"]}
{"id": "C31", "title": "Reset preserves configuration and forgets the message", "statement": "Reset returns any session to the configuration state with no message-specific secret, context, size or error left, while keeping CMM, commitment policy, EDK limit and (as documented) the frame size to use for encryption.", "quantifier": "every history before reset", "why_tests_cant": "all histories", "anchors": ["source/session.c: aws_cryptosdk_session_reset", "include/aws/cryptosdk/session.h"]}
{"id": "C32", "title": "The local cache never exceeds its capacity and stays consistent", "statement": "After any sequence of cache operations the number of live entries is at most the capacity, the lookup table, the LRU list and the expiry queue describe exactly the same entries, and evicted or invalidated entries can no longer be found.", "quantifier": "every operation sequence and clock behaviour", "why_tests_cant": "all histories", "anchors": ["source/local_cache.c"]}
{"id": "C33", "title": "Cache entries are freed exactly once and never while in use", "statement": "Whatever the order of find, put, release, invalidate, clear, eviction and expiry, an entry is destroyed only after it has left the cache and its last handle has been released, and it is destroyed at most once.", "quantifier": "every interleaving of operations by any number of users", "why_tests_cant": "lifetime errors depend on the interleaving", "anchors": ["source/local_cache.c: locked_release_entry, locked_invalidate_entry, release_entry"]}
{"id": "C34", "title": "Expired entries are never served", "statement": "A cache lookup never returns an entry whose time-to-live has passed, and a caching CMM never serves an entry older than its configured TTL; TTL hints can only shorten an entry's life.", "quantifier": "every operation history and clock", "why_tests_cant": "all histories and times", "anchors": ["source/local_cache.c: check_ttl", "source/caching_cmm.c: check_ttl"]}
{"id": "C35", "title": "The evicted entry is the least recently used one", "statement": "When a put exceeds capacity, exactly the entries evicted are those whose last find or put is oldest.", "quantifier": "every operation history", "why_tests_cant": "all histories", "anchors": ["source/local_cache.c: locked_insert_entry, lru"]}
{"id": "C36", "title": "Usage limits bound what is encrypted under one cached data key", "statement": "The number of messages and the total declared bytes encrypted under one cached data key never exceed the caching CMM's limits.", "quantifier": "every sequence of requests, sizes up to 2^64-1, cache evictions; concurrent requests", "why_tests_cant": "limits near 2^63, wrap-around and concurrency", "anchors": ["source/caching_cmm.c: generate_enc_materials", "source/local_cache.c: update_usage_stats"]}
{"id": "C37", "title": "Cache hits return only materials for the same request", "statement": "A caching CMM returns cached materials only if an upstream CMM produced them for a request with the same partition, requested suite and encryption context (encrypt), or the same partition, suite, context and multiset of EDKs (decrypt), assuming the hash has no collisions.", "quantifier": "every pair of requests", "why_tests_cant": "injectivity of the identifier over unbounded requests", "anchors": ["source/caching_cmm.c: hash_enc_request, hash_dec_request"]}
{"id": "C38", "title": "Materials for suites without key derivation are never cached", "statement": "As documented in the code, materials for algorithm suites that use the data key directly are never cached or served from the cache.", "quantifier": "every request and upstream behaviour", "why_tests_cant": "needs all suites and paths", "anchors": ["source/caching_cmm.c: can_cache_algorithm"]}
{"id": "C39", "title": "Multi-keyring encryption is all-or-nothing and complete", "statement": "On success the EDK list gains exactly the EDKs of the generator followed by those of every child in order; on any failure the caller's EDK list and keyring trace are unchanged.", "quantifier": "every number and behaviour of children", "why_tests_cant": "all children behaviours", "anchors": ["source/multi_keyring.c: multi_keyring_on_encrypt"]}
{"id": "C40", "title": "Multi-keyring decryption tries every child until one succeeds", "statement": "Decryption returns a data key if any child yields one when tried in order, errors of other children do not stop it (as documented), it fails only if no child produced a key and some child failed.", "quantifier": "every number and behaviour of children", "why_tests_cant": "all behaviours", "anchors": ["source/multi_keyring.c: multi_keyring_on_decrypt", "include/aws/cryptosdk/multi_keyring.h"]}
{"id": "C41", "title": "The keyring interface guarantees data key lengths and write-once data keys", "statement": "Through the public keyring calls a data key handed out always has the length of the requested suite, an existing data key is never replaced, and encryption is refused if EDKs exist without a data key, whatever the keyring implementation does.", "quantifier": "every keyring behaviour", "why_tests_cant": "arbitrary third-party keyrings", "anchors": ["source/materials.c: aws_cryptosdk_keyring_on_encrypt, aws_cryptosdk_keyring_on_decrypt"]}
{"id": "C42", "title": "The default CMM selects the suite by policy and binds the signing key", "statement": "The default CMM uses the requested suite, else the configured one, else the committing signed suite when the policy requires commitment and the non-committing signed suite otherwise; it refuses a context that already holds the reserved key; on success the context holds the reserved key iff the suite is signed; on decrypt it accepts only contexts holding the reserved key iff the suite is signed, and fails with CANNOT_DECRYPT when no data key was obtained.", "quantifier": "every request, context, keyring behaviour", "why_tests_cant": "all contexts and behaviours", "anchors": ["source/default_cmm.c"]}
{"id": "C43", "title": "Raw AES keyring unwraps exactly what it wrapped", "statement": "Any data key wrapped by a raw AES keyring is recovered by a keyring with the same wrapping key, namespace and name from any EDK list containing the EDK (with authentic AES-GCM); EDKs of other namespaces, names or malformed provider info are skipped without error.", "quantifier": "every key, namespace, name, context and EDK list", "why_tests_cant": "all EDK lists", "anchors": ["source/raw_aes_keyring.c"]}
{"id": "C44", "title": "Raw AES keyring data keys are bound to the encryption context", "statement": "If AES-GCM decryption accepts only what was encrypted with the wrapping key, a raw AES keyring returns a data key only if that data key was wrapped with the same encryption context.", "quantifier": "every EDK list and encryption context", "why_tests_cant": "attacker-chosen inputs", "anchors": ["source/raw_aes_keyring.c: raw_aes_keyring_on_decrypt"]}
{"id": "C45", "title": "Raw RSA keyring round trip and filtering", "statement": "A raw RSA keyring with the private key recovers a data key wrapped by one with the public key under the same namespace, name and padding from any EDK list containing it; other EDKs are skipped without error; a keyring lacking the needed half of the key fails with BAD_STATE.", "quantifier": "every EDK list", "why_tests_cant": "all EDK lists", "anchors": ["source/raw_rsa_keyring.c"]}
{"id": "C46", "title": "The KMS keyring only uses permitted keys", "statement": "A KMS keyring asks KMS to decrypt only EDKs of provider aws-kms whose key ARN is in the configured list (or, in discovery mode, passes the discovery filter), and returns a data key only if KMS answered with that same key ARN.", "quantifier": "every EDK list, key list, filter and KMS behaviour", "why_tests_cant": "all EDK lists and service behaviours", "anchors": ["aws-encryption-sdk-cpp/source/kms_keyring.cpp"]}
{"id": "C47", "title": "KMS keyring encryption is all-or-nothing", "statement": "On success there is one EDK per configured key in order (generator first); on failure no EDK is added and a generated data key is erased.", "quantifier": "every key list and KMS failure pattern", "why_tests_cant": "all failure points", "anchors": ["aws-encryption-sdk-cpp/source/kms_keyring.cpp: OnEncrypt"]}
{"id": "C48", "title": "Multi-Region key matching only ignores the region", "statement": "Two key identifiers match for decryption iff they are equal, or both are multi-Region key ARNs that differ at most in the region; matching is an equivalence relation on multi-Region ARNs, and never matches keys of different account, partition or key id.", "quantifier": "every pair of strings", "why_tests_cant": "all strings", "anchors": ["aws-encryption-sdk-cpp/source/private/cpputils.cpp: kms_mrk_match_for_decrypt"]}
{"id": "C49", "title": "MRK-aware keyring only decrypts permitted EDKs and checks the answer", "statement": "An MRK-aware keyring calls KMS only for EDKs of provider aws-kms that carry a valid key ARN matching its configured key (strict mode) or passing region and filter rules (discovery mode), and returns a data key only if KMS answered with the requested key id and a key of the right length.", "quantifier": "every EDK list, configuration and KMS behaviour", "why_tests_cant": "all EDK lists and behaviours", "anchors": ["aws-encryption-sdk-cpp/source/kms_mrk_keyring.cpp"]}
{"id": "C50", "title": "Duplicate multi-Region keys are detected whatever the order", "statement": "A strict MRK multi-keyring is refused iff two of the configured identifiers are multi-Region key identifiers with the same key id, independent of their order.", "quantifier": "every list of identifiers", "why_tests_cant": "all lists", "anchors": ["aws-encryption-sdk-cpp/source/private/cpputils.cpp: find_duplicate_kms_mrk_ids"]}
{"id": "C51", "title": "Copying lists of EDKs or trace records is all-or-nothing", "statement": "Copying a list of EDKs or trace records appends copies of all elements in order, or on failure at any element leaves the destination exactly as it was; transferring moves all elements in order and empties the source.", "quantifier": "every list and failure point", "why_tests_cant": "all failure points", "anchors": ["source/list_utils.c"]}
{"id": "C52", "title": "Serialized signing keys round-trip and are bound to their suite", "statement": "A private signing key serialised for the cache can be reloaded only for the algorithm suite it was created for and yields the same key pair; truncated or extended encodings are rejected.", "quantifier": "every key pair and byte string", "why_tests_cant": "all byte strings", "anchors": ["source/cipher_openssl.c: aws_cryptosdk_sig_get_privkey, aws_cryptosdk_sig_sign_start"]}
{"id": "C53", "title": "Key derivation separates messages, suites and purposes", "statement": "Two derivations feed the key-derivation function with the same inputs only if suite, message id, data key and purpose (content key or commitment) agree; suites without derivation use the data key itself.", "quantifier": "every pair of derivations", "why_tests_cant": "injectivity over all inputs", "anchors": ["source/cipher.c: aws_cryptosdk_private_derive_key"]}
{"id": "C54", "title": "Frame associated data is unambiguous", "statement": "The associated data of two frames are equal only if message id, frame kind, sequence number and length all agree.", "quantifier": "every pair of frames", "why_tests_cant": "injectivity over all inputs", "anchors": ["source/cipher.c: update_frame_aad"]}
{"id": "C55", "title": "Reference-counted CMMs, keyrings and caches are destroyed exactly once", "statement": "Under any interleaving of retain and release by their owners, an object is destroyed exactly when the last reference is released, exactly once, and never used afterwards.", "quantifier": "every interleaving of any number of threads", "why_tests_cant": "all schedules", "anchors": ["include/aws/cryptosdk/materials.h: aws_cryptosdk_cmm_release, aws_cryptosdk_private_refcount_down"]}
{"id": "C56", "title": "Oversized encrypted data keys are refused", "statement": "Encryption never reports success on a message that cannot be parsed back because an encrypted data key field or the EDK count does not fit its 16-bit length.", "quantifier": "every CMM behaviour", "why_tests_cant": "boundary at 65535 in any of many fields", "anchors": ["source/header.c: aws_cryptosdk_hdr_write", "source/session_encrypt.c: sign_header"]}
{"id": "C57", "title": "The caching CMM is transparent", "statement": "For any request history a session using a caching CMM gets, for each request, materials the upstream CMM issued (data key, EDKs, suite, encryption context including the public signing key) for an equivalent request; failures of the cache fall back to the upstream CMM.", "quantifier": "every request history and cache behaviour including a cache that always fails", "why_tests_cant": "all histories", "anchors": ["source/caching_cmm.c: generate_enc_materials, decrypt_materials"]}
{"id": "C58", "title": "MRK-aware keyring encryption checks KMS and is all-or-nothing", "statement": "An MRK-aware keyring encrypts by one call to KMS with its own key in that key's region; it succeeds only if KMS answered with a valid key ARN and, when generating, a data key of the length of the suite; then exactly that EDK is added, and on failure nothing changes. A discovery keyring refuses to encrypt.", "quantifier": "every key id, suite, context, caller state and KMS behaviour", "why_tests_cant": "all service behaviours and failure points", "anchors": ["aws-encryption-sdk-cpp/source/kms_mrk_keyring.cpp: OnEncrypt"]}
{"id": "C59", "title": "KMS keyrings unwrap what they wrapped", "statement": "Given a KMS that decrypts what it encrypted under the same context, a KMS keyring that permits one of the keys used, and an MRK-aware keyring with a related key or in discovery mode in any region, recovers the data key wrapped by such a keyring.", "quantifier": "every key list, filter, region, context and suite", "why_tests_cant": "all configurations", "anchors": ["aws-encryption-sdk-cpp/source/kms_keyring.cpp", "aws-encryption-sdk-cpp/source/kms_mrk_keyring.cpp"]}
{"id": "C60", "title": "Signatures have exactly the suite's length and verify", "statement": "A signature returned by sign_finish has exactly the length its suite states (so it fills the footer space reserved for it), verifies over the digest of everything passed to the context, and no buffer is overrun for signatures of any length; the context repeats the signature only as long as the length differs.", "quantifier": "every suite, key, transcript and sequence of raw signatures", "why_tests_cant": "signature lengths are random; the rare lengths occur with small probability", "anchors": ["source/cipher_openssl.c: aws_cryptosdk_sig_sign_finish"]}
{"id": "C61", "title": "Public signing keys travel unchanged", "statement": "The public key text written to the encryption context by key generation is the base64 of a compressed point on the suite's curve; it is the text any context started from the cached private key reports, and verification started from it uses exactly that public key, for the curve of the suite only.", "quantifier": "every key pair, suite and text", "why_tests_cant": "all keys and strings", "anchors": ["source/cipher_openssl.c: aws_cryptosdk_sig_sign_start_keygen, aws_cryptosdk_sig_verify_start, aws_cryptosdk_sig_sign_start"]}
{"id": "C62", "title": "Following the buffer estimates ends", "statement": "A caller that processes a stream by calling process repeatedly, always with at least the estimated input (if that much of the stream is left) and at least the estimated output space, makes only finitely many successful calls: the number is bounded by a function of the length of the stream, whatever windows and buffer sizes it picks.", "quantifier": "every reachable session, stream, sequence of windows and output buffer sizes", "why_tests_cant": "unbounded sequences of calls and all window sizes", "anchors": ["source/session.c: aws_cryptosdk_session_process, aws_cryptosdk_session_estimate_buf", "source/session_encrypt.c", "source/session_decrypt.c"]}
{"id": "C63", "title": "Materials are checked before they are used", "statement": "Whatever the materials manager returns, output is produced only from materials that are fit: encryption materials for a known suite with a data key of the suite's length, at least one EDK, and a signing key exactly if the suite signs; decryption materials with a data key of the length of the header's suite and, for signing suites, a verification key.", "quantifier": "every history of calls and every behaviour of the materials manager", "why_tests_cant": "materials managers are supplied by users and may return anything at any time", "anchors": ["source/session_encrypt.c: aws_cryptosdk_priv_try_gen_key", "source/session_decrypt.c: aws_cryptosdk_priv_unwrap_keys"]}
{"id": "C64", "title": "The request for encryption materials says what the caller chose", "statement": "The request carries the encryption context set by the caller since the last reset, no demand for a suite, the commitment policy in force, and the declared message size or else the bound in force; the plaintext of a finished message is never longer than the size in the request.", "quantifier": "every history of calls, including resets, rejected calls and sizes declared late", "why_tests_cant": "all orders of configuration calls", "anchors": ["source/session_encrypt.c: aws_cryptosdk_priv_try_gen_key", "source/session.c: setters, aws_cryptosdk_session_get_enc_ctx_ptr_mut, aws_cryptosdk_session_process_full"]}
{"id": "C65", "title": "Reported context and trace come from the materials manager", "statement": "While decrypting, the session reports an encryption context only after the materials manager accepted a request with that context, and the keyring trace is that of its answer; while encrypting it reports the context chosen by the caller and then the one returned with the materials. A reported context is always authenticated.", "quantifier": "every history of calls", "why_tests_cant": "all histories, including those that end in errors", "anchors": ["source/session.c: aws_cryptosdk_session_get_enc_ctx_ptr, aws_cryptosdk_session_get_keyring_trace_ptr", "source/session_decrypt.c: aws_cryptosdk_priv_unwrap_keys"]}
{"id": "C66", "title": "The suite table agrees with the structure of suite identifiers", "statement": "For every 16-bit identifier (indeed every number), a suite exists exactly if its low byte names an AES key size and its high byte a derivation and signature that go with it, and then key length, hash, commitment, signature length, header version, message id length and header tag length are those that follow from the two bytes; the separate switches (known, committing, hash) agree with the table.", "quantifier": "every identifier", "why_tests_cant": "several tables and switches that must agree on all identifiers", "anchors": ["source/cipher.c: aws_cryptosdk_alg_props, aws_cryptosdk_which_sha", "source/header.c: aws_cryptosdk_algorithm_is_known, aws_cryptosdk_algorithm_is_committing"]}
{"id": "C67", "title": "An encryption whose helpers work does not fail and can be finished", "statement": "On a session in encryption mode that has not failed, if the materials manager answers its request with materials that fit suite, policy and header, the primitives, random generator and signer work, and the message is within the limits of the format, then every call of process succeeds for every input and output buffer; once the size is declared, a call with the rest of the message and enough room consumes it all and finishes the message, and so does a single call of process_full on a freshly configured session.", "quantifier": "all histories of API calls, all inputs, all buffer sizes, all suites and frame sizes, all contexts and data keys that fit", "why_tests_cant": "absence of spurious failures over all sizes and buffer splits, with limits near 2^31, 2^32 and 2^36", "anchors": ["source/session_encrypt.c: aws_cryptosdk_priv_try_gen_key, build_header, sign_header, aws_cryptosdk_priv_try_encrypt_body, aws_cryptosdk_priv_write_trailer", "source/session.c: aws_cryptosdk_session_process, aws_cryptosdk_session_process_full", "source/framefmt.c: aws_cryptosdk_serialize_frame"]}
{"id": "C68", "title": "Key derivation is HKDF of RFC 5869", "statement": "The library's own HKDF (used with old OpenSSL and AWS-LC) returns the output keying material of RFC 5869 for every hash, salt, input key, info and output length the RFC permits, fails exactly on the other lengths when HMAC works, writes only inside the output buffer, and after any failure leaves it untouched or zeroed; content keys and key commitments of messages are therefore the values RFC 5869 gives for the suite's parameters.", "quantifier": "all salts, keys, infos, output lengths and failing HMAC calls; every HMAC with outputs of constant length", "why_tests_cant": "test vectors cover a few lengths; the block loop, the last partial block and each failing call are not enumerated", "anchors": ["source/hkdf.c: aws_cryptosdk_hkdf_extract, aws_cryptosdk_hkdf_expand, aws_cryptosdk_hkdf", "source/cipher.c: aws_cryptosdk_private_derive_key_v1, aws_cryptosdk_private_derive_key_v2"]}
{"id": "C69", "title": "Building an MRK-aware multi-keyring leaks nothing", "statement": "A builder that returns NULL has destroyed every keyring it had made and owns no reference, wherever it failed; a keyring it returns holds one keyring per identifier or region, made by this call; once the caller releases the returned keyring, all of them are destroyed.", "quantifier": "all identifiers and regions, all points of failure", "why_tests_cant": "leaks are invisible to functional tests, and each failure point needs its own fault injection", "anchors": ["aws-encryption-sdk-cpp/source/kms_mrk_keyring.cpp: MultiKeyringBuilder::_Build, MultiKeyringBuilder::BuildDiscovery", "source/multi_keyring.c: aws_cryptosdk_multi_keyring_new, aws_cryptosdk_multi_keyring_add_child"]}
{"id": "C70", "title": "The assembled library round-trips", "statement": "A session over the default CMM and a keyring of raw AES and RSA keyrings, alone or in a multi-keyring, encrypts; a session over the default CMM whose keyring holds one of the keys gets the plaintext, the suite and the encryption context back, whatever the buffers; neither fails as long as randomness, the primitives and signing work and the context, the encrypted data keys and the message fit the format. Nothing is assumed about the materials.", "quantifier": "all keys, contexts, suites, policies, plaintexts, compositions of keyrings, call schedules and buffer sizes", "why_tests_cant": "the combinations of keyrings, suites, contexts and buffer schedules cannot be enumerated, and the parts meet only in integration tests with a few fixed keys", "anchors": ["source/default_cmm.c: default_cmm_generate_enc_materials, default_cmm_decrypt_materials", "source/multi_keyring.c: multi_keyring_on_encrypt, multi_keyring_on_decrypt", "source/raw_aes_keyring.c: raw_aes_keyring_on_encrypt, raw_aes_keyring_on_decrypt", "source/raw_rsa_keyring.c: raw_rsa_keyring_on_encrypt, raw_rsa_keyring_on_decrypt", "source/session.c: aws_cryptosdk_session_process, aws_cryptosdk_session_process_full"]}
{"id": "C71", "title": "A cached entry stays and is used", "statement": "An operation on the local cache removes an entry only by clearing the cache, by request of its holder, by replacing it under the same id, to make room in a full cache, or because its expiry time has come; otherwise a lookup finds it. A put that meets no failure stores the entry. A caching CMM called alone, in an environment that works, answers from an entry that its limits allow it to use and does not ask the upstream CMM; so of two equal requests made one after the other, the second is answered with the materials of the first.", "quantifier": "all histories of the cache and of concurrent calls before, all requests, limits, capacities and times", "why_tests_cant": "that an entry survives everything that is not a reason to remove it ranges over all operations and all states; a cache that silently never hits passes every functional test", "anchors": ["source/local_cache.c: find_entry, put_entry_for_encrypt, put_entry_for_decrypt, clear_cache, locked_insert_entry, locked_process_ttls, locked_invalidate_entry", "source/caching_cmm.c: generate_enc_materials, decrypt_materials, check_ttl, set_ttl_on_miss"]}
{"id": "C72", "title": "Caching limits stay within the documented ranges", "statement": "Creation and the setters accept exactly the documented values and change only the limit they name; times are converted to nanoseconds exactly or saturate at the largest 64-bit number. However a caching CMM was configured, its message limit is between 1 and 2^32, its byte limit at most 2^63-1 and its time limit positive, so for calls that do not overlap the usage limits hold without any condition on the limits.", "quantifier": "all sequences of configuration calls and all arguments", "why_tests_cant": "the overflow argument needs the whole range of 64-bit limits and all sequences of setters", "anchors": ["source/caching_cmm.c: aws_cryptosdk_caching_cmm_new_from_cmm, aws_cryptosdk_caching_cmm_set_limit_bytes, aws_cryptosdk_caching_cmm_set_limit_messages, aws_cryptosdk_caching_cmm_set_ttl, convert_ttl_to_nanos"]}
{"id": "C73", "title": "Nothing is leaked or released twice", "statement": "A client makes keyrings and a session, uses the session for any messages in both directions, and destroys it. Whatever allocations and calls fail on the way, no block is released twice, none is used after its release, and at the end none is still allocated. A constructor that fails leaves the memory as it was. The same holds for a caching CMM.", "quantifier": "all keyrings built from raw AES, raw RSA, KMS and nested multi-keyrings, all sequences of operations, all data, all combinations of failures", "why_tests_cant": "each of the more than a hundred allocations and calls on these paths can fail, in any combination; error paths are hardly ever executed by tests", "anchors": ["source/materials.c", "source/edk.c", "source/keyring_trace.c", "source/list_utils.c", "source/enc_ctx.c", "source/header.c: aws_cryptosdk_hdr_init, aws_cryptosdk_hdr_clear, aws_cryptosdk_hdr_clean_up, aws_cryptosdk_hdr_parse", "source/cipher_openssl.c: aws_cryptosdk_sig_*", "source/raw_aes_keyring.c", "source/raw_rsa_keyring.c", "source/multi_keyring.c", "source/default_cmm.c", "source/session.c", "source/session_encrypt.c", "source/session_decrypt.c", "source/caching_cmm.c: aws_cryptosdk_caching_cmm_new_from_cmm, destroy_caching_cmm", "aws-encryption-sdk-cpp/source/kms_keyring.cpp", "aws-encryption-sdk-cpp/source/kms_mrk_keyring.cpp"]}
{"id": "C74", "title": "Key material is erased before memory is given back", "statement": "Every block and local variable that held a data key, a content key or a private key is overwritten before it is given back. Between calls key material is held only by the keyrings and by the session structure; once a session has been reset, only by the keyrings.", "quantifier": "all keyrings as in C73, all sequences of operations, all data, all combinations of failures", "why_tests_cant": "unerased memory does not change behaviour, and the paths on which it happens are error paths", "anchors": ["source/session.c: aws_cryptosdk_session_reset, aws_cryptosdk_session_destroy", "source/session_encrypt.c: aws_cryptosdk_priv_try_gen_key", "source/session_decrypt.c: derive_data_key", "source/materials.c: aws_cryptosdk_enc_materials_destroy, aws_cryptosdk_dec_materials_destroy", "source/raw_aes_keyring.c", "source/raw_rsa_keyring.c", "aws-encryption-sdk-cpp/source/kms_keyring.cpp", "aws-encryption-sdk-cpp/source/kms_mrk_keyring.cpp"]}
{"id": "C75", "title": "KMS clients are used in their region and kept only if they work", "statement": "Requests are sent through a client for the region that the key's ARN names, unless the application provides another client. A caching client supplier keeps a client only after KMS answered a request made with it, and then every later request in that region uses it. A keyring built with a client uses that client only; one built with a single key has one client. The callable with which success is reported is never called unset.", "quantifier": "all threads, keyrings, builders and suppliers, all interleavings, all answers of KMS and of the application's own suppliers", "why_tests_cant": "tests use one mock client supplier in one thread; which of many interleavings and answers go wrong cannot be enumerated", "anchors": ["aws-encryption-sdk-cpp/source/kms_keyring.cpp: CachingClientSupplier::GetClient, SingleClientSupplier::GetClient, BuildClientSupplier, OnEncrypt, OnDecrypt", "aws-encryption-sdk-cpp/source/kms_mrk_keyring.cpp: OnEncrypt, OnDecrypt, MultiKeyringBuilder::_Build, MultiKeyringBuilder::BuildDiscovery"]}
{"id": "C76", "title": "Messages written and read through caches round-trip", "statement": "A message finished by a session whose materials come from a caching CMM over the default CMM and keyrings decrypts, in any pieces, in a session whose materials come from a caching CMM over keyrings that can unwrap: no call fails, a prefix of the plaintext is released at any time, all of it at the end, with the same suite and encryption context. This is so whether materials came from the cache or from a keyring, whatever else uses the caches, and for entries made for the same keys and context in another order.", "quantifier": "all plaintexts, contexts, sizes, buffer sizes, keyrings, cache capacities and limits, all executions of concurrent calls on the caches", "why_tests_cant": "which calls are served from the cache depends on the interleaving, the clock and evictions; tests check a few sequences", "anchors": ["source/caching_cmm.c: generate_enc_materials, decrypt_materials", "source/local_cache.c", "source/default_cmm.c", "source/session.c", "source/multi_keyring.c", "source/raw_aes_keyring.c", "source/raw_rsa_keyring.c"]}
{"id": "C77", "title": "Keyrings of any shape unwrap what keyrings of any other shape wrap", "statement": "A multi-keyring of raw AES, raw RSA, KMS and MRK-aware KMS keyrings, nested in any way, makes one encrypted data key per raw keyring and per KMS key, in order. Any other such tree of keyrings, of which none opens one of these wrongly and one opens one rightly, recovers the same data key, whatever the order of the encrypted data keys and of the context and whatever happens in the other keyrings. Sessions over the two therefore round-trip.", "quantifier": "all trees of keyrings of any depth and width, keys, contexts, suites, KMS behaviours, memory failures of keyrings that are not needed, plaintexts and buffer sizes", "why_tests_cant": "tests have a few fixed combinations, mostly with one level and one kind of keyring; failures of single members are hardly combined", "anchors": ["source/multi_keyring.c", "source/keyring.c", "source/raw_aes_keyring.c", "source/raw_rsa_keyring.c", "aws-encryption-sdk-cpp/source/kms_keyring.cpp: OnEncrypt, OnDecrypt", "aws-encryption-sdk-cpp/source/kms_mrk_keyring.cpp: OnEncrypt, OnDecrypt", "source/default_cmm.c", "source/session.c"]}
{"id": "C78", "title": "The keyring trace tells the truth for keyrings of any shape", "statement": "Wrapping by a tree of keyrings appends to the trace exactly one record per wrapping key, in order, each with the namespace, name and flags of that key, the first and only the first of them saying that it made the data key, and only if there was none before; wrapping that fails leaves the trace alone. Unwrapping appends a record exactly when a data key was found, and that record names a keyring of the tree that really opened an encrypted data key of the message to it. Where memory for records runs out records are missing, but none is wrong.", "quantifier": "all trees of raw, KMS and MRK-aware KMS keyrings, contexts, suites, traces before, encrypted data keys, KMS answers and memory failures", "why_tests_cant": "tests look at the trace of a few fixed keyrings and never at failures between the records", "anchors": ["source/keyring_trace.c", "source/multi_keyring.c", "source/raw_aes_keyring.c", "source/raw_rsa_keyring.c", "aws-encryption-sdk-cpp/source/kms_keyring.cpp", "aws-encryption-sdk-cpp/source/kms_mrk_keyring.cpp"]}
{"id": "C79", "title": "The local cache and the caching CMM own their memory properly", "statement": "A client that makes keyrings, a local cache and a caching CMM, uses them in any way, holding entries and materials as long as it likes, and then releases everything, leaves nothing allocated; nothing is released twice or used after its release, no assertion of the cache fails and its mutex is not locked twice. Key material is overwritten before its block is given back. Between calls key material is held only by the keyrings, the client's materials and allocated entries, and once the cache is cleared only by the entries the client still holds.", "quantifier": "all keyrings, capacities, sequences of calls of the CMM and the cache, sizes of EDK lists and contexts, data-dependent decisions, evictions and failures of allocations, OpenSSL calls and locking, except at the sites named", "why_tests_cant": "tests run a few sequences; failures of single allocations or locks within the methods are not injected, and erasure is not observable afterwards", "anchors": ["source/local_cache.c", "source/caching_cmm.c", "source/cache.c", "source/materials.c", "include/aws/cryptosdk/cache.h"]}
{"id": "C80", "title": "cipher.c uses OpenSSL's AES-GCM correctly, whatever calls fail", "statement": "Body encryption and decryption, header authentication, wrapping of data keys and random bytes make OpenSSL calls that never write outside the buffers given, abort or free a context twice, and free every context they make. Success means that the output is the AES-GCM encryption or decryption under the content key, the IV of the frame and the additional data of the format, for texts of any length; what is sealed is opened. After a failure no tag is given out and the output buffers hold zeros only; a wrong tag is told apart from failures of OpenSSL. The one-step functions of the other models give the same results.", "quantifier": "all key streams and tag functions, suites, keys, texts up to 2^64 bytes, buffers, sequences of failing OpenSSL calls with any error codes; headers up to 2^31 bytes", "why_tests_cant": "tests use a few lengths, none beyond INT_MAX, and do not make single OpenSSL calls fail", "anchors": ["source/cipher.c", "include/aws/cryptosdk/private/cipher.h"]}
{"id": "C81", "title": "cipher.c and hkdf.c use OpenSSL's RSA and HKDF correctly, whatever calls fail", "statement": "Wrapping and unwrapping with RSA and key derivation with OpenSSL free every object they make and no other, never write outside the buffers, and give back only memory that they have zeroed. Success means that the result is the text wrapped under the key of the PEM string with the padding and hashes of the mode, the text unwrapped, or the key of RFC 5869 for the salt, if any, the input key and the info. After a failure the output buffer is unset again or holds no key material; refused wrapped texts are told apart from other failures. What is wrapped is unwrapped; the two versions of HKDF agree; the one-step functions of the other models give the same results.", "quantifier": "all RSA and HKDF functions with outputs of the right sizes, keys, texts, padding modes, buffers, sequences of failing calls; PEM strings, salts, input keys and infos up to 2^31 bytes", "why_tests_cant": "tests do not make single OpenSSL calls fail, use few keys and modes, and are built against one version of OpenSSL only", "anchors": ["source/cipher.c", "source/hkdf.c", "include/aws/cryptosdk/private/cipher.h", "include/aws/cryptosdk/private/hkdf.h"]}
{"id": "C82", "title": "The model reads and writes the messages that the Encryption SDKs for C, Java, JavaScript and Python wrote", "statement": "AES-GCM, HMAC and HKDF, written as functions, have the properties that the other claims assume of the primitives. With them the session model, over the default CMM and the keyrings of the tests, decrypts test messages of the repository to their plaintexts and refuses those the tests expect to be refused, with the error for a bad ciphertext and without output; a signed message is released exactly if the signature is accepted for everything before it and the public key in the encryption context. Given the keys, message id, encrypted data keys, context and plaintext of such messages, it writes them again byte for byte.", "quantifier": "the hypotheses: all keys, nonces, texts; the messages: every result of verification for other inputs; the messages themselves are a fixed list", "why_tests_cant": "tests check the library, not the model: this ties the model to the behaviour of four implementations, and shows that the assumptions about the primitives hold together for every input", "anchors": ["tests/unit/t_commitment.c", "tests/unit/t_commitment_vectors.inc", "tests/decrypt.c", "tests/lib/zero_keyring.c", "tests/data", "source/session.c", "source/session_decrypt.c", "source/session_encrypt.c", "source/header.c", "source/framefmt.c", "source/cipher.c"]}
{"id": "C83", "title": "Local copies of keys are wiped before a function returns, except the data key of a decrypting session", "statement": "When the library's own HKDF returns, with success or after any failing call, the arrays with the pseudorandom key and the last block are all zero in their whole length. The same holds for the local data key of the step that generates the key of an encrypting session, and for the array and OpenSSL's encoding with the private key when a signing key is written out; the temporary numbers used to read a signing key are cleared. Key derivation of a decrypting session does not do it: after every success its local array still holds the data key.", "quantifier": "all inputs, all contents of uninitialised memory, all sets of failing OpenSSL and allocator calls, whatever a failing call wrote; sessions in any state, any materials", "why_tests_cant": "the contents of dead stack frames and freed blocks cannot be read by a test without undefined behaviour, and the error paths need failures inside OpenSSL", "anchors": ["source/hkdf.c", "source/session_encrypt.c", "source/session_decrypt.c", "source/cipher_openssl.c"]}
{"id": "C84", "title": "The model gives the known answers of the unit tests", "statement": "With AES-GCM, HMAC and HKDF written as functions, the model's key derivation gives the content keys and commitments of the unit tests for every algorithm suite; sealing frames gives the known IVs, ciphertexts and tags and opening them the plaintexts; the known headers verify under the keys derived for them, and signing them gives the known tags; the library's own HKDF gives the outputs of its test vectors and refuses to work without a hash. The raw AES keyring wraps the known data keys into the known encrypted data keys, unwraps them, and finds nothing when the encryption context has one more pair; the nine wrong encrypted data keys of the tests are skipped and a good one after them is found.", "quantifier": "every result of signature verification (it is not asked); a fixed list of vectors; for the refusal without a hash: all inputs", "why_tests_cant": "tests check the library, not the model: a model that computes the same bytes as the library on the library's own vectors has the right constants, byte orders and field layouts", "anchors": ["tests/unit/t_cipher.c", "tests/unit/t_hkdf.c", "tests/unit/t_raw_aes_keyring_decrypt.c", "tests/lib/raw_aes_keyring_test_vectors.c", "source/cipher.c", "source/hkdf.c", "source/raw_aes_keyring.c"]}
{"id": "C85", "title": "Cache ids, headers, encryption contexts and provider infos of the unit tests", "statement": "With SHA-512 written as a function, the caching CMM named as in the unit tests computes the cache ids of the tests, for encryption and decryption requests; a partition id made from a name has 64 bytes. The test headers (two of version 1, one of version 2) are parsed to the structures of the tests, leaving what follows; these have the known size, are written as the known bytes, and are refused for a smaller buffer or an unknown suite; every shorter prefix is too short, and the malformed headers of the tests are refused. The test contexts have the known sizes and serializations in whatever order the table yields their pairs, and a serialized context with a key twice is refused. The raw AES keyring makes the known provider info, and a keyring of any name accepts exactly provider infos of that form (name, tag length 128, IV length 12, IV of 12 bytes).", "quantifier": "a fixed list of vectors; all trailing bytes; all prefixes; all orders of the pairs; all plaintext sizes and commitment policies of the requests; all names; all names, IVs and provider infos", "why_tests_cant": "tests check the library, not the model, and only one order of pairs and a few trailing bytes; agreement on the library's own vectors shows that the model has the right constants, byte orders, field layouts and sort orders", "anchors": ["tests/unit/t_caching_cmm.c", "tests/unit/t_header.c", "tests/unit/t_enc_ctx.c", "source/caching_cmm.c:68-99", "source/caching_cmm.c", "source/header.c", "source/enc_ctx.c", "tests/unit/t_raw_aes_keyring_provider_info.c", "source/raw_aes_keyring.c:34-88"]}
