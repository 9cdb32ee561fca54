# Design of the formal model of httpsig-rs

Properties: `properties.jsonl` (generated by `tools/gen_properties.py`).
Status per property: `MANIFEST.json`.  Experiments with wrong programs: `seeded/LOG.jsonl`.

## 1. Layout (rocq/theories)

Model (definitions only, each citing file and lines in /repo):

| file | models |
|---|---|
| `Base.v` | strings as lists of code points, `result` (Ok / Err / Panic), `collect`, trim, split, join, decimal numbers |
| `Utf8.v` | UTF-8 encoding (`String::as_bytes`) |
| `Base64.v` | base64 encode, strict decode (crate `base64`, STANDARD), lenient decode (crate `sfv`) |
| `Sfv.v` | structured fields parser and serializer (crate `sfv` 0.14, RFC 9651) |
| `Component.v` | `httpsig/src/message_component/*` |
| `Params.v` | `httpsig/src/signature_params.rs`, `util.rs` |
| `SigBase.v` | `httpsig/src/signature_base.rs` |
| `Crypto.v` | `httpsig/src/crypto/*` (primitives abstract) |
| `Http.v` | the parts of the `http` crate that the code uses (HeaderMap, HeaderValue, Uri, Method) |
| `Hyper.v` | `httpsig-hyper/src/hyper_http.rs` |
| `Digest.v` | `httpsig-hyper/src/hyper_content_digest.rs`, `lib.rs` |
| `Async.v` | the async methods as state machines that are polled, `join_all`, `block_on`, the `*_sync` methods, bodies that arrive in parts |
| `Sha2.v` | SHA-256, SHA-512 (FIPS 180-4) and HMAC-SHA256 (RFC 2104), written out; used where the length of hash values matters and in `Conformance.v` |
| `Der.v` | the DER structures of key files (crates `der`, `pkcs8`, `spki`, `sec1`), put in place of the abstract decoders by `with_der` |
| `Rsa.v` | PKCS#1 public and private keys (crates `pkcs1`, `rsa`), put in place of abstract RSA keys by `with_rsa`; the arithmetic stays a parameter |
| `Curve25519.v` | Ed25519 (RFC 8032), written out; only used in `ConformanceEd.v` |
| `Toy.v` | a toy instance of the primitives, only used in examples and witnesses |

Specification (written without the helpers of the model; RFC 9421, RFC 9530, RFC 9651 notions):

| file | content |
|---|---|
| `SpecSfv.v` | characters, keys, base64 texts, structured field texts |
| `SpecId.v` | valid component identifiers, equality of identifiers |
| `SpecValue.v`, `SpecExtract.v` | component values; what a component is taken from; the text that gets signed; which signatures are checked |
| `SpecParams.v`, `SpecBase.v` | parameters that can be written; layout of parameters and of the signature base |
| `SpecMsg.v`, `SpecSign.v` | signatures held by header lines; signing, histories of signing calls |
| `SpecCrypto.v` | what is required of the primitives (`correct`, `octet_output`) and of keys |
| `SpecDigest.v` | digests, digest header lines, histories of set_content_digest |
| `SpecAsync.v` | schedules: first polls, covering schedules, clocks and seeds seen by the inner futures |
| `SpecGrammar.v`, `SpecIdText.v` | the grammar of structured fields; which texts denote which identifiers, parameters and signatures, and which make the library panic; what the library writes |
| `SpecCanon.v` | the canonical text of each structured field value |
| `SpecErrors.v` | which error each operation reports |
| `SpecSha.v` | the constants and blocks of SHA-2; when the computation of two hashes or MACs shows a collision of the compression function |
| `SpecLabels.v` | dictionaries of the signature headers: renaming, removal, same verdict |
| `SpecApi.v` | functions used without a message |
| `SpecForge.v`, `SpecInterop.v` | params with the same text; the text that RFC 9421 wants to be verified |
| `SpecTransit.v` | requests made by a client and received by a server |
| `SpecRfc.v`, `SpecQuery.v` | component values of RFC 9421 section 2 where the library may differ |
| `SpecChain.v` | components that adding signatures does not change |
| `SpecDer.v` | how key files are written: DER elements, object identifiers, PKCS#8, RFC 5915, RFC 8410, SubjectPublicKeyInfo |
| `SpecRsa.v` | RSA keys of PKCS#1 (RFC 8017): numbers in DER, RSAPublicKey, RSAPrivateKey |

No specification file uses the parser or the serializer of the model: lists, dictionaries and canonical texts are given by the
grammars in `SpecGrammar.v` and `SpecCanon.v`, so that an error in `Sfv.v` breaks the theorems about messages as well.

Proofs: `BaseFacts`, `Utf8Facts`, `Base64Facts`, `SfvFacts`, `SfvRound`, `TextFacts` (facts about the model's library part),
`SpecSfvProofs`, `CryptoProofs`, `IdProofs`, `ValueProofs`, `ParamsProofs`, `BaseProofs`, `HeaderProofs`, `MsgProofs`, `VerifyProofs`,
`ExtractProofs`, `TamperProofs`, `FrameProofs`, `SignProofs`, `DigestProofs`, `AsyncProofs`, `Sha2Proofs`, `LabelProofs`, `ExactProofs`, `GrammarProofs`, `IdTextProofs`, `CanonProofs`, `ErrorProofs`, `CompressProofs`, `CollisionProofs`, `ForgeProofs`, `TransitProofs`, `RfcProofs`, `QueryProofs`, `ChainProofs`, `DerProofs`, `RsaProofs` (model meets specification), `Decide`
(computable forms of predicates, for examples).

Theorems that count: `Props_Text`, `Props_Crypto`, `Props_Id`, `Props_Value`, `Props_Params`, `Props_Verify`, `Props_Base`, `Props_Sign`,
`Props_Frame`, `Props_Digest`, `Props_Async`, `Props_Sha`, `Props_Labels`, `Props_Exact`, `Props_Grammar`, `Props_Panic`, `Props_Canon`, `Props_Errors`, `Props_Collision`, `Props_Api`, `Props_Forge`, `Props_Interop`, `Props_Transit`, `Props_Rfc`, `Props_Query`, `Props_Chain`, `Props_Der`, `Props_Rsa`.  Each is followed by `Print Assumptions`; each property has an `Example` that meets the hypotheses.
`tools/gen_manifest.py` collects them into `MANIFEST.json`.

`Conformance.v` runs the unit tests of /repo (and the message of RFC 9421 B.2.5 with its HMAC) on the model; the key files of the
tests are decoded and their key ids computed. Signing and verifying with RSA, ECDSA and Ed25519 runs with toy keys, except in
`ConformanceEd.v`: there the key file is read and the message of RFC 9421 B.2.6 is accepted with Ed25519 written out in `Curve25519.v`.

## 2. Modelling decisions

* A character is an `N` (Unicode scalar value), a string is `list N`, a byte string is `list N` with values below 256.
* Every fallible function returns `Ok`, `Err e` (the variant of the error enum, without its message) or `Panic p` (where it panics).
  A panic anywhere is the result of the whole call.
* The clock is a parameter (`now`).  Each call of `is_expired` in a verification reads its own value from
  an oracle indexed by key and signature, so all statements hold for every behaviour of the clock.
* Randomised signing takes a seed; statements hold for every seed.
* The traits `SigningKey` and `VerifyingKey` are records of functions.  The cryptographic primitives are parameters;
  what is needed of them (e.g. "the public key accepts what the secret key signs") is an explicit hypothesis of the theorem,
  and a toy instance shows the hypothesis can be met.
* Parsers use fuel equal to input length plus one; it is proved that this fuel never runs out (parsers are
  fuel-independent from there on).
* `IndexMap`/`IndexSet` are association lists / lists in insertion order: inserting an existing key keeps its position
  and replaces the value.  `IndexSet` equality ignores the order.
* `HeaderMap` is a list of (lower-case name, value) lines in insertion order; `get_all`, `get`, `append`, `insert`,
  `contains_key` are defined on it.  (The real map does not keep the relative order of different names;
  C46 shows that this order never matters.)
* In `Hyper.v`, `join_all` evaluates all futures and returns results in argument order.  `Async.v` models the async functions as machines
  whose inner futures are polled in any order, each poll with its own clock readings and random numbers; C55 shows that every
  schedule gives what `Hyper.v` says.  `block_on` polls until the future is finished, and panics inside another executor.

## 3. Trusted base

* The Coq 8.16.1 kernel (and `coqc`); `Print Assumptions` of each theorem in `Props_*.v` prints "Closed under the global context".
* A check of all loaded files also lists the seven parameters of the stdlib module `Coq.ssr.ssrunder.Under_rel`. The stdlib's own `List` and
  `NArith` load that module (`Print Libraries` after either import shows it); no file here imports it and no theorem depends on it.
* That the Gallina definitions say what the cited Rust lines say.
* The behaviour of dependencies, written from their documentation and the RFCs since their sources are not in the
  sandbox: `sfv` 0.14 (RFC 9651 algorithms), `base64` STANDARD engine, `indexmap`, `http` (`HeaderMap`, `HeaderValue`,
  `Uri` accessors and Display, `PathAndQuery`, `Method`), `http-body-util` collect, `der` 0.7, `pkcs8` 0.10, `spki` 0.7, `sec1` 0.7, `pkcs1` 0.8, `futures` join_all/block_on,
  Rust `str` functions (`trim`, `split_once`, `to_ascii_lowercase`...).
* Not modelled: error messages, logging, memory use, timing, `Debug` output, feature-dependent compile errors, the PEM text
  format (a function from texts to labels and bytes; in C29 and C89 the DER decoders are parameters as well, C110 to C113 use those of `Der.v`), the arithmetic of RSA (C114 and C115 use the files of `Rsa.v`), generic body type conversions,
  the cryptographic security of the primitives.

## 4. Properties: what is modelled and how it is proved

| id | approach |
|---|---|
| C01 | model of id parse/print over the sfv model; round trip by the sfv round-trip lemma for ids without `"` and `\`; refuted in general by a computed witness |
| C02 | case analysis of the parser; independent inductive description of valid ids |
| C03 | unfolding parse on `"` ++ s ++ `"`; trim idempotence |
| C04 | set equality specification over lists; hash input = sorted strings, permutation argument |
| C05 | `has_unique_elements` iff pairwise-inequivalent (induction); all fields of the params made |
| C06 | `split_once` at first colon; proved for ids without colon; refuted with a colon |
| C07 | induction over parameters |
| C08 | sfv: serialize∘parse idempotent, parse∘serialize identity |
| C09 | induction over lines; independence lemma |
| C10 | table compared with an independent specification of the RFC values over an abstract URI |
| C11 | specification as filter on split query; induction |
| C12 | rendered params = sfv serialization of an inner list; generic round trip; refuted for strings with quotes and for large integers |
| C13 | injectivity for clean strings; refuted by the escaped-quote witness |
| C14 | map semantics of parameters; permutation lemma |
| C15 | exact characterisation of the panicking inputs plus witnesses |
| C16, C17, C18 | arithmetic; induction over setter histories |
| C19, C20, C21, C22 | independent layout specification; line splitting argument; UTF-8 injectivity |
| C23, C24 | try_parse specification; dictionary locality lemma |
| C25 | base64 round trip and uniqueness of strict decoding |
| C26 | sfv round trip by structural induction; dictionary concatenation |
| C27 | finite case analysis plus string equality |
| C28, C29, C30, C31 | model of key handling over abstract primitives |
| C32, C33, C47 | invariant: the header texts of a message parse to the list of signatures made so far |
| C34, C35 | frame lemmas, prefix of job list |
| C36, C38, C39, C40 | specification of the first qualifying signature; induction over the entries |
| C37, C54 | base injectivity |
| C41, C42 | case analysis |
| C43, C44 | unfolding with an independent specification |
| C45, C46 | extensionality: outcome depends on the message through listed observations only |
| C48 | refuted by witness; exact statement (last one wins) proved |
| C49–C53 | digest model over abstract hash functions, sfv round trip; C53 refuted |
| C55, C56, C65 | step-machine semantics, induction over schedules; non-interference of the inner futures |
| C66 | induction over the pending body; only the concatenated data matters |
| C67, C68, C69 | lengths of SHA-2 values; base64 texts need no escaping |
| C90–C93 | Merkle–Damgård: induction over the blocks from the end; the length block separates texts of different length. "A collision exists" alone would be true for reasons of number, so the theorems say that it is among the inputs on the way to the two hashes. The compression function is described bit by bit in SpecSha.v and shown to be the only function that meets the description; so is the MAC |
| C94–C99 | the functions that callers can use without a message: case analysis, with the texts of SpecBase.v/SpecApi.v and C19, C41, C44 |
| C100, C101 | list of the given texts in order; two adjacent texts can be merged into one, one text split in two; verification congruence over the checked signatures; the forged header is the canonical dictionary with one member exchanged |
| C102 | the text of the RFC is the canonical text of the received member; equality with the printed params implies that these round-trip, so C76 gives the exact condition |
| C103 | the relation between the request made and the request received is part of the specification (transit in SpecTransit.v); all other component lines are equal, so the extracted signatures are |
| C104, C105, C107 | the rules of the RFC are relations in SpecRfc.v over the grammar and canonical texts of structured fields; joining lines is proved on the grammar (RfcProofs.v) |
| C106 | form decoding and encoding of the URL standard are written down in SpecQuery.v; encoding is a bijection onto the encoded texts |
| C108, C109 | stated for what the library signs (`component_line`); appended lines are single dictionary members, so selecting members by other names gives the same texts, and joined texts grow otherwise (ChainProofs.v) |
| C110-C113 | each decoder inverts the writer of `SpecDer.v` and reads nothing else (DerProofs.v), put into C29 and C89; refutations by computed files |
| C114, C115 | numbers in the shortest form are unique (RsaProofs.v), so the reader of PKCS#1 inverts the writer; key ids by C93 |
| C70, C71 | outcome relation; two clocks that agree on expiry |
| C75, C76, C77, C78 | the number of backslashes in a text bounds the number of escapes in what is parsed from it; printing does not escape |
| C84 | panic relations over the grammar of SpecGrammar.v; the collecting loop stops at the first member that is not read |
| C85 to C89 | error relations over the same grammars (SpecErrors.v), one constructor per cause in the order of the checks; each function is shown to give an error exactly if the relation holds |
| C82, C83 | relational description of canonical texts (SpecCanon.v); shown equal to the serializer by uniqueness of digit strings without leading zeros |
| C79, C80, C81 | relational grammar (SpecGrammar.v, SpecIdText.v); each parser function is shown sound and complete for it, with the locality lemmas for what follows |
| C72, C73, C74 | simulation between the parsed dictionaries under renaming, permutation and removal |
| C57, C58, C59, C60 | refuted by computed witnesses; strongest true versions proved |
| C62 | case analysis over key types with correct primitives |
| C63 | bases do not depend on added signature headers (frame lemma) |
| C64 | refuted by witness; parseable names and params proved sufficient |
| C61 | not expressible: timing is outside a functional model |

## 5. What was found about the code

1. Texts are printed without escaping double quotes and backslashes, so different parameters can have the same signed text (C13) and
   such identifiers and parameters do not survive printing and parsing (C01, C12, exact in C75, C76).
2. Received headers can make verification panic: a negative `created` or `expires`, an unknown derived component name, a date item,
   and for ECDSA keys a signature of the wrong length (C15, C31, C60, exact in C71 and C84).
3. The `alg` parameter is never compared with the key (C57); a `created` in the future is accepted.
4. Only the first Content-Digest line is checked (C53).
5. Of signatures with the same name the last one wins (C48); one unusable name or parameter text spoils all signatures of a message (C64).
6. A covered component that is a token (not a string) is accepted, and its parameters become part of the name: `(foo;sf)` covers a field
   named `foo;sf` (C81_token_name).
7. The comment on the key id of elliptic curve keys speaks of the uncompressed encoding; the code hashes the compressed one (asymmetric.rs:404-420).
8. `SecretKey::from_der`, `from_pem` and `from_bytes` panic, instead of returning an error, on well-formed key files whose key octets have the
   wrong length: EC private keys not of 32 (P-256) or 48 (P-384) bytes, Ed25519 key octets not of 34 bytes (C89_secret_panics).
9. Shared keys that differ only in zero bytes at the end (up to 64 bytes) accept each other's MACs although their key ids differ (C92).
10. `HttpSignatureBase::verify_signature_headers` looks at the expiry of the headers it is given but verifies the text of the base, and never compares the two params (C95). The functions on messages always pass params that belong together.
11. Because of item 1 anyone can change the parameters of a signature that has two of nonce, alg, keyid and tag, and it is still accepted, for example
    with `nonce="n-1\";alg=\"hmac-sha256"` instead of `nonce="n-1";alg="hmac-sha256"` (C100). Replay protection by remembering nonces is void.
12. Verification does not use the Signature-Input member as received but prints the known parameters again in the order created, expires, nonce, alg,
    keyid, tag (C102). Signatures of other implementations with another order (as in RFC 9421 B.2.1) or further parameters are rejected, and
    parameters can be reordered and unknown ones added unnoticed.
13. `@authority`, `@scheme` and `@target-uri` are read from the URI of the request object only. Over HTTP/1.1 a server gets the origin form, where they are
    empty (or only path and query), so what a client signed with an absolute URI is rejected (C103).
14. Component values differ from RFC 9421 in: white space around header values and missing fields (C104), dictionaries with a key in several lines and
    missing members (C105), `@query-param` with plus signs, other escapes, repeated or missing parameters (C106), default ports in `@authority`,
    lower-case methods, and `@request-target` of OPTIONS requests (C107). Each theorem says exactly when there is no difference.
15. A signature over the whole Signature or Signature-Input field is made, but not over what the message then contains (C108); one over `@signature-params`, which the RFC
    forbids, is made and accepted, and depends on which signature is in the first line (C109).
16. Ed25519 key files: the header of the inner octet string is skipped without a check (`private_key[2..]`), so other structures are taken for a seed,
    and files with other lengths panic (C111). EC key files: the inner curve and public key are not compared with the outer curve and the scalar (C112).

## 6. Reading seeded/LOG.jsonl

Each line is one wrong program: the model with one edit, built in a copy outside this directory.

* Entries with hand-written edits: failing proofs were admitted one after the other. `failed_directly` lists the statements whose proofs broke;
  `failed` lists the theorems of `Props_*.v` that then depend on one of them. Such a theorem is not necessarily false for the edited program:
  its proof may only use a lemma that broke. Many edits break a central lemma, so long lists under `failed` are weak evidence.
* `false_for_this_program` is the stronger evidence: theorems found false for the edited program by reading their statements. The list is not
  complete, and an empty one means that none was determined.
* Entries `v...` are common mistakes in the low-level functions.
* Entries `r...` are a random sample of generated edits, run in the same way as the hand-written ones but not reviewed.
* Entries `m9-...` to `m14-...` are later series, hand-written: `m9` to `m11` for C05 and C94 to C107, `m12` for the DER files (C110 to C113), `m13` for the RSA
  files (C114, C115), `m14` for C108, C109 and for theorems that no earlier edit had reached. Before `m14`, C46_same_value, C102_exactly_partial,
  C108_exactly_partial and C109_value_partial only compared specifications with each other; they now speak about the functions of the model.
* Entries `auto...` are generated edits too. These runs stopped at the first failing proof (`first_failed`), most often a lemma that describes the edited
  function; `failed` is empty then and no claim was examined. Their number says little about the claims.
* `SURVIVED`: everything still built. The note says why the edit changes no result.
