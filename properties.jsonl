{"id": "C01", "title": "Component identifier text round-trips", "statement": "Printing a component identifier with to_string and parsing the text with HttpMessageComponentId::try_from gives back the same identifier (same name, same parameters in the same order), for every identifier that try_from can produce.", "quantifier": "every component identifier obtainable by parsing any string", "why_tests_cant": "Identifier names and key/name parameter values are arbitrary strings; a test only samples some of them, and the failing ones (values containing a double quote or a backslash) are exactly those nobody samples.", "anchors": ["httpsig/src/message_component/component_id.rs: HttpMessageComponentId::try_from, Display", "httpsig/src/message_component/component_name.rs: Display", "httpsig/src/message_component/component_param.rs: Display"]}
{"id": "C02", "title": "Component identifiers are validated", "statement": "Whenever HttpMessageComponentId::try_from returns Ok, the name is either an HTTP field (text not starting with '@') or one of the ten derived components; a `name` parameter occurs only on @query-param; sf, bs, tr and key occur only on HTTP fields; and no parameter occurs twice.", "quantifier": "every input string", "why_tests_cant": "The input is an arbitrary untrusted string.", "anchors": ["httpsig/src/message_component/component_id.rs: HttpMessageComponentId::try_from", "httpsig/src/message_component/component_name.rs: TryFrom<&BareItem>", "httpsig/src/message_component/component_param.rs: TryFrom<(&str,&BareItem)>"]}
{"id": "C03", "title": "Quoted and unquoted identifiers agree", "statement": "For every nonempty text without a double quote and without surrounding whitespace, parsing `name` and parsing `\"name\"` give the same result (identifier or error), and surrounding whitespace never changes the result of parsing an identifier.", "quantifier": "every nonempty trimmed string without double quotes; every string and every amount of surrounding whitespace", "why_tests_cant": "Unbounded set of strings.", "anchors": ["httpsig/src/message_component/component_id.rs: HttpMessageComponentId::try_from"]}
{"id": "C04", "title": "Identifier equality ignores parameter order and agrees with hashing", "statement": "Two identifiers compare equal exactly when the names are equal and the parameter sets are equal as sets; the comparison is an equivalence relation; and equal identifiers feed the same data to any hasher.", "quantifier": "every pair/triple of identifiers, every hasher", "why_tests_cant": "Eq/Hash consistency is a for-all-pairs contract; a violation only shows on a particular pair.", "anchors": ["httpsig/src/message_component/component_id.rs: derive(PartialEq, Eq, Hash)", "httpsig/src/message_component/component_param.rs: impl Hash for HttpMessageComponentParams"]}
{"id": "C05", "title": "Duplicate covered components are rejected, and only those", "statement": "HttpSignatureParams::try_new and the parsers of signature params fail with InvalidSignatureParams when two covered component identifiers are equal (also when their parameters are merely reordered), and never fail for that reason otherwise. The params made by try_new have the given components in the given order, the current time as created, and no other parameter.", "quantifier": "every list of component identifiers", "why_tests_cant": "Lists of unbounded length; duplicates may be at any two positions.", "anchors": ["httpsig/src/signature_params.rs: HttpSignatureParams::try_new, TryFrom<&ListEntry>", "httpsig/src/util.rs: has_unique_elements"]}
{"id": "C06", "title": "Component line round-trips", "statement": "Parsing the printed line `<id>: <value>` of a component with HttpMessageComponent::try_from gives back its identifier and its value up to surrounding whitespace.", "quantifier": "every component with any identifier and any value", "why_tests_cant": "Values are arbitrary text; an identifier containing a colon is split at the wrong place.", "anchors": ["httpsig/src/message_component/component.rs: TryFrom<&str> for HttpMessageComponent, Display"]}
{"id": "C07", "title": "HTTP field component value", "statement": "Building an HTTP field component without sf/key/bs/tr/name parameters succeeds for every list of field values and its value is the field values in order, joined by a comma and a space; a bs, tr or name parameter always yields NotYetImplemented unless an earlier sf/key parameter already failed.", "quantifier": "every field name, every list of field values, every parameter list", "why_tests_cant": "Unbounded lists of arbitrary values.", "anchors": ["httpsig/src/message_component/component.rs: build_http_field_component"]}
{"id": "C08", "title": "sf parameter canonicalises", "statement": "With the sf parameter each field value that is a well-formed structured list or dictionary is replaced by its canonical text: the result parses to the same value, applying sf again changes nothing, and the number and order of values is kept; otherwise building the component fails.", "quantifier": "every list of field values", "why_tests_cant": "The structured-field grammar is recursive; canonicalisation must hold for every value.", "anchors": ["httpsig/src/message_component/component_param.rs: handle_params_sf", "httpsig/src/message_component/component.rs: build_http_field_component"]}
{"id": "C09", "title": "key parameter selects one dictionary member", "statement": "With the key parameter the component value consists of exactly the canonical texts of the members with that key of those field lines that contain it, in order; it fails if some line is not a dictionary; other members of the dictionaries never influence it.", "quantifier": "every list of field values and every key", "why_tests_cant": "Unbounded dictionaries and lists.", "anchors": ["httpsig/src/message_component/component_param.rs: handle_params_key_into", "httpsig/src/message_component/component.rs: build_http_field_component"]}
{"id": "C10", "title": "Derived component values follow RFC 9421 section 2.2", "statement": "For every request, the values of @method, @target-uri, @authority, @scheme, @request-target, @path and @query that get signed are: the method in upper case, the full URI text, the lower-cased authority, the lower-cased scheme, the request target (path and query; the authority for CONNECT and an asterisk for OPTIONS), the non-empty path (the text * in the asterisk form), and the query with a leading '?'; for a response @status is the three-digit status code.", "quantifier": "every request and response", "why_tests_cant": "All methods and URI forms (origin, absolute, authority, asterisk form) must be covered.", "anchors": ["httpsig-hyper/src/hyper_http.rs: extract_derived_component", "httpsig/src/message_component/component.rs: build_derived_component"]}
{"id": "C11", "title": "@query-param selection", "statement": "@query-param;name=\"n\" has as value exactly the values of the parameters of the query named n (text before the first '='), in order of appearance joined by a comma and a space; other query parameters never influence it. A query without any parameter is an error.", "quantifier": "every query string and every name", "why_tests_cant": "Unbounded query strings with repeated, empty and '='-less segments.", "anchors": ["httpsig-hyper/src/hyper_http.rs: extract_derived_component", "httpsig/src/message_component/component.rs: build_derived_component"]}
{"id": "C12", "title": "Signature params text round-trips", "statement": "HttpSignatureParams::try_from(params.to_string()) gives back params, for every params value built through the public API with identifiers that came from parsing.", "quantifier": "every params value", "why_tests_cant": "All combinations of optional fields and arbitrary string fields; string fields containing a quote or backslash, integers of more than 15 digits break it.", "anchors": ["httpsig/src/signature_params.rs: Display for HttpSignatureParams, TryFrom<&str>, TryFrom<&ListEntry>"]}
{"id": "C13", "title": "Signed text determines the signature parameters", "statement": "Two received Signature-Input members that are rendered to the same @signature-params text in the signature base have the same created, expires, nonce, alg, keyid and tag: nobody can change a parameter without invalidating the signature.", "quantifier": "every pair of received signature inputs", "why_tests_cant": "It is an injectivity statement over all pairs of inputs; the counterexamples use escaped quotes.", "anchors": ["httpsig/src/signature_params.rs: Display for HttpSignatureParams, TryFrom<&ListEntry>"]}
{"id": "C14", "title": "Signature-Input parameters are read as a map", "statement": "The parsed created/expires/nonce/alg/keyid/tag depend only on the last occurrence of each of these parameter names; unknown parameter names are ignored; the relative order of the parameters does not matter; a parameter whose value has the wrong type is treated as absent.", "quantifier": "every Signature-Input member", "why_tests_cant": "Any number and order of parameters, repeated names.", "anchors": ["httpsig/src/signature_params.rs: TryFrom<&ListEntry> for HttpSignatureParams"]}
{"id": "C15", "title": "Parsing untrusted signature headers does not panic", "statement": "Verifying or inspecting a message never panics while parsing its Signature and Signature-Input headers, whatever their content.", "quantifier": "every pair of header texts", "why_tests_cant": "Header texts are attacker-controlled and unbounded; the panicking ones (negative created/expires, unknown '@' names) are not in any test.", "anchors": ["httpsig/src/signature_params.rs: TryFrom<&ListEntry>", "httpsig/src/message_component/component_name.rs: From<&str> for DerivedComponentName", "httpsig/src/signature_base.rs: HttpSignatureHeaders::try_parse"]}
{"id": "C16", "title": "Expiry test", "statement": "is_expired is true exactly when expires is present and strictly smaller than the current time in seconds; params without expires never expire; once expired, always expired while the clock does not go back.", "quantifier": "every params value and every clock reading", "why_tests_cant": "Boundary and monotonicity over all 64-bit times.", "anchors": ["httpsig/src/signature_params.rs: is_expired"]}
{"id": "C17", "title": "set_expires_with_duration", "statement": "When created is set and created+duration fits in 64 bits, expires becomes created plus the given duration (300 when none is given) and nothing else changes; without created it panics; on 64-bit overflow the release build wraps around, so expires can lie before created.", "quantifier": "every params value and every duration", "why_tests_cant": "Overflow only happens at the edge of the 64-bit range.", "anchors": ["httpsig/src/signature_params.rs: set_expires_with_duration, DEFAULT_DURATION"]}
{"id": "C18", "title": "Setters touch only their field", "statement": "After any sequence of set_* calls every field holds the argument of the last call that sets it, or its initial value if there was none; the covered components never change.", "quantifier": "every sequence of setter calls", "why_tests_cant": "All histories of setter calls.", "anchors": ["httpsig/src/signature_params.rs: set_created, set_expires, set_nonce, set_alg, set_keyid, set_tag, set_key_info, set_random_nonce"]}
{"id": "C19", "title": "Signature base has the RFC 9421 section 2.5 layout", "statement": "The signature base is, for each covered component in order, its identifier, a colon, a space, its value and a newline, followed by \"@signature-params\": and the rendered parameters without a trailing newline.", "quantifier": "every list of component lines and params", "why_tests_cant": "Unbounded number of lines.", "anchors": ["httpsig/src/signature_base.rs: Display for HttpSignatureBase, as_bytes"]}
{"id": "C20", "title": "Signature base is unambiguous", "statement": "If two signature bases, built from messages or otherwise with lines that carry the covered identifiers, have equal text and no identifier or value contains a newline, then they have the same number of lines, the same printed identifiers in the same order, the same component values and the same printed parameters.", "quantifier": "every pair of signature bases, including adversarial identifiers containing quotes, colons and spaces", "why_tests_cant": "Injectivity over all pairs.", "anchors": ["httpsig/src/signature_base.rs: Display for HttpSignatureBase"]}
{"id": "C21", "title": "Signature base is only built from matching lines", "statement": "HttpSignatureBase::try_new succeeds exactly when the component lines have, in order, the covered component identifiers; on success the base contains these lines and params unchanged.", "quantifier": "every list of lines and params", "why_tests_cant": "Unbounded lists.", "anchors": ["httpsig/src/signature_base.rs: HttpSignatureBase::try_new"]}
{"id": "C22", "title": "The bytes that get signed determine the base text", "statement": "as_bytes returns the UTF-8 encoding of the text; different texts give different bytes.", "quantifier": "every pair of texts", "why_tests_cant": "Injectivity over all Unicode strings.", "anchors": ["httpsig/src/signature_base.rs: as_bytes"]}
{"id": "C23", "title": "Signature and Signature-Input members are paired by name", "statement": "When HttpSignatureHeaders::try_parse succeeds, the result has exactly the names of both headers, in Signature-Input order, and each entry has the params of the Signature-Input member and the bytes of the Signature member with that name; it fails when the name sets differ, when a Signature member is not a byte sequence or when a Signature-Input member is not an inner list.", "quantifier": "every pair of header texts", "why_tests_cant": "Arbitrary dictionaries with repeated and reordered names.", "anchors": ["httpsig/src/signature_base.rs: HttpSignatureHeaders::try_parse"]}
{"id": "C24", "title": "Generated headers parse back", "statement": "For any list of generated signatures with distinct valid names, joining their signature_header_value and signature_input_header_value texts with a comma and a space and parsing them with try_parse returns exactly these signatures, params and names.", "quantifier": "every list of signatures", "why_tests_cant": "Unbounded number of signatures with arbitrary bytes and params.", "anchors": ["httpsig/src/signature_base.rs: signature_header_value, signature_input_header_value, try_parse"]}
{"id": "C25", "title": "Base64 coding of signatures and keys", "statement": "Decoding the printed base64 text of a signature gives the same bytes; SharedKey::from_base64 accepts exactly canonical padded base64, so a key has only one accepted text.", "quantifier": "every byte string and every text", "why_tests_cant": "Every length modulo 3, all bytes.", "anchors": ["httpsig/src/signature_base.rs: Display for HttpSignature", "httpsig/src/crypto/symmetric.rs: SharedKey::from_base64", "httpsig-hyper/src/hyper_content_digest.rs: into_bytes_with_digest"]}
{"id": "C26", "title": "Structured field values survive serialization", "statement": "Parsing the serialization of a structured item, list or dictionary returns the same value; appending a further dictionary text after a comma and a space to a dictionary text parses to the union in which later members override earlier ones.", "quantifier": "every well-formed structured field value", "why_tests_cant": "Recursive grammar of unbounded size.", "anchors": ["httpsig/src/message_component/component_param.rs: Parser uses", "httpsig/src/signature_base.rs: Parser uses", "httpsig-hyper/src/hyper_http.rs: extract_signature_headers_with_name join"]}
{"id": "C27", "title": "Algorithm names", "statement": "AlgorithmName::from_str accepts exactly the registered names (case-sensitively; RSA names only with the rsa-signature feature), is the inverse of to_string, and different algorithms have different names.", "quantifier": "every string", "why_tests_cant": "All strings must be rejected except six.", "anchors": ["httpsig/src/crypto/mod.rs: AlgorithmName::as_str, FromStr"]}
{"id": "C28", "title": "Shared-key MAC", "statement": "SharedKey::verify accepts a data/MAC pair exactly when the MAC is the one sign produces for that data; SharedKey::from_base64 never yields a key for an algorithm other than hmac-sha256.", "quantifier": "every key, data and MAC", "why_tests_cant": "All byte strings, including truncated MACs.", "anchors": ["httpsig/src/crypto/symmetric.rs: SharedKey::sign, verify, from_base64"]}
{"id": "C29", "title": "Keys are bound to the requested algorithm", "statement": "If SecretKey::from_pem/from_der or PublicKey::from_pem succeeds for an algorithm, the key reports exactly that algorithm and the OIDs in the key file are those of that algorithm (RSA files being usable for both RSA algorithms); hmac-sha256 is always refused.", "quantifier": "every algorithm, every key file, with and without RSA support", "why_tests_cant": "All key files and all mismatched algorithm choices.", "anchors": ["httpsig/src/crypto/asymmetric.rs: SecretKey::from_der, from_pem, from_bytes, PublicKey::from_pem, from_bytes"]}
{"id": "C30", "title": "Key ids and algorithm of both halves agree", "statement": "A secret key and its public key report the same key_id and the same algorithm, as signing key and as verifying key; the key id is the base64 text of the SHA-256 of the public key bytes.", "quantifier": "every key", "why_tests_cant": "All keys of all types.", "anchors": ["httpsig/src/crypto/asymmetric.rs: SecretKey::key_id, alg, PublicKey::key_id", "httpsig/src/crypto/symmetric.rs: key_id"]}
{"id": "C31", "title": "Verifying a signature of any length does not panic", "statement": "VerifyingKey::verify returns Ok or Err for every signature byte string.", "quantifier": "every key type, data and signature bytes", "why_tests_cant": "Signature bytes come from the network; only lengths different from the curve size break it.", "anchors": ["httpsig/src/crypto/asymmetric.rs: PublicKey::verify", "httpsig/src/crypto/symmetric.rs: SharedKey::verify"]}
{"id": "C32", "title": "Sign then verify, requests", "statement": "After a successful set_message_signature on a request without signature headers, verify_message_signature with the matching key (and with no key id or the key id in the params) succeeds and returns the signature name, as long as the signature has not expired, no covered component is one of the signature headers themselves, the name is a structured field key and the params can be written as they are (C12). The shared and asymmetric keys of the library are matching pairs if the primitives are correct.", "quantifier": "every request, params, matching key pair, name, randomness and verification time", "why_tests_cant": "All messages and parameters.", "anchors": ["httpsig-hyper/src/hyper_http.rs: MessageSignatureReq for Request<D>"]}
{"id": "C33", "title": "Sign then verify, responses", "statement": "The same as C32 for responses, with request-bound components (req) taken from the same request at signing and at verification.", "quantifier": "every response, associated request, params, matching key pair, name and time", "why_tests_cant": "All messages and parameters.", "anchors": ["httpsig-hyper/src/hyper_http.rs: MessageSignatureRes for Response<D>"]}
{"id": "C34", "title": "Signing only appends signature headers", "statement": "set_message_signature(s) changes nothing but the signature and signature-input headers, and to these it only appends values, whether it succeeds or fails.", "quantifier": "every message, every list of signing jobs", "why_tests_cant": "Frame condition over all messages and failure points.", "anchors": ["httpsig-hyper/src/hyper_http.rs: set_message_signatures"]}
{"id": "C35", "title": "Signing many is all-or-nothing with respect to building and signing", "statement": "If building a base or signing fails for any job, the message is unchanged; if inserting a header value fails, the message gets complete signature pairs of a prefix of the jobs and never a signature-input without its signature.", "quantifier": "every message, job list and failure point", "why_tests_cant": "Every failure point of every job list.", "anchors": ["httpsig-hyper/src/hyper_http.rs: set_message_signatures"]}
{"id": "C36", "title": "Verification is exact", "statement": "verify_message_signature returns Ok(name) exactly when name is the first signature, in Signature-Input order, that has the requested key id (if one was requested), whose covered components can be extracted from the message, that has not expired, and whose signature bytes the key accepts for the signature base recomputed from the current message, provided that checking no candidate panics; otherwise it returns an error, or panics as in C15 and C31.", "quantifier": "every message, key, key id and clock", "why_tests_cant": "Every combination of signatures in a message.", "anchors": ["httpsig-hyper/src/hyper_http.rs: verify_message_signatures_inner, extract_signatures_inner"]}
{"id": "C37", "title": "Covered parts cannot be changed unnoticed", "statement": "If two messages carry the same signature name, signature bytes and signature input and both are presented to a key, the key sees the same bytes only if every covered component has the same value in both messages; so a key that accepts a signature for at most one byte string accepts at most one set of covered values.", "quantifier": "every pair of messages with the same signature input", "why_tests_cant": "For-all-pairs statement about tampering.", "anchors": ["httpsig-hyper/src/hyper_http.rs: build_signature_base", "httpsig/src/signature_base.rs: as_bytes"]}
{"id": "C38", "title": "An expired signature is never accepted", "statement": "verify_message_signature never returns the name of a signature whose expires is smaller than the time at which it is checked, even if the key accepts it.", "quantifier": "every message, key and clock", "why_tests_cant": "All times and all positions of the expired signature.", "anchors": ["httpsig/src/signature_base.rs: verify_signature_headers", "httpsig-hyper/src/hyper_http.rs: verify_message_signatures_inner"]}
{"id": "C39", "title": "Key id filter", "statement": "When a key id is given, only a signature whose keyid parameter equals it can be returned; if there is none, the error is NoSignatureHeaders and the key is never consulted.", "quantifier": "every message, key and key id", "why_tests_cant": "All sets of signatures.", "anchors": ["httpsig-hyper/src/hyper_http.rs: verify_message_signatures_inner"]}
{"id": "C40", "title": "Verifying several keys at once", "statement": "verify_message_signatures returns one result per given key, in order, each equal to what verify_message_signature returns for that key alone.", "quantifier": "every message and list of keys", "why_tests_cant": "Unbounded lists.", "anchors": ["httpsig-hyper/src/hyper_http.rs: verify_message_signatures, verify_message_signature"]}
{"id": "C41", "title": "req components", "statement": "A request signature covering a req component can neither be created nor verified; a response signature covering one needs the associated request; the value of such a component depends on the request only.", "quantifier": "every message, identifier and associated request", "why_tests_cant": "All messages.", "anchors": ["httpsig-hyper/src/hyper_http.rs: build_signature_base, extract_derived_component"]}
{"id": "C42", "title": "Derived components are only used where they exist", "statement": "@status cannot be signed or verified on a request; on a response, every derived component other than @status and @signature-params without req is refused; name is accepted on @query-param only and sf, key, bs and tr on no derived component.", "quantifier": "every message and identifier, including identifiers built without the parser", "why_tests_cant": "All identifiers.", "anchors": ["httpsig-hyper/src/hyper_http.rs: extract_derived_component"]}
{"id": "C43", "title": "Unsigned messages", "statement": "verify and the inspection functions return NoSignatureHeaders exactly when the signature or the signature-input header is missing (or, for verification, when no signature qualifies), and has_message_signature says exactly whether both are present.", "quantifier": "every message", "why_tests_cant": "All header maps.", "anchors": ["httpsig-hyper/src/hyper_http.rs: has_message_signature_inner, extract_signature_headers_with_name"]}
{"id": "C44", "title": "Inspection agrees with verification", "statement": "get_alg_key_ids, get_signature_params and extract_signatures list the same signatures in the same order with the same params; alg is None exactly when it is absent or not a supported name; extract_signatures omits exactly the signatures whose covered components cannot be extracted.", "quantifier": "every message", "why_tests_cant": "All messages.", "anchors": ["httpsig-hyper/src/hyper_http.rs: get_alg_key_ids_inner, get_signature_params_inner, extract_signatures_inner"]}
{"id": "C45", "title": "Uncovered parts do not matter", "statement": "Changing the body, or any header that is neither a signature header nor covered, never changes the outcome of verification; a response verification depends on the associated request only through req components.", "quantifier": "every pair of messages that agree on covered parts", "why_tests_cant": "For-all-pairs statement.", "anchors": ["httpsig-hyper/src/hyper_http.rs: build_signature_base, verify_message_signatures"]}
{"id": "C46", "title": "Header order and line splitting", "statement": "Verification does not depend on the relative order of header lines with different names; splitting a covered field into several lines at a comma-space, or joining the lines, does not change its signed value when it has no parameters.", "quantifier": "every header map", "why_tests_cant": "All permutations and splittings.", "anchors": ["httpsig-hyper/src/hyper_http.rs: extract_http_field", "httpsig/src/message_component/component.rs: build_http_field_component"]}
{"id": "C47", "title": "Any history of signing keeps every signature valid", "statement": "After any sequence of successful set_message_signature(s) calls with distinct valid names on a message that carries none or only parseable signatures, every one of the signatures verifies with its key, is found under its name if its key id is unique, all names are listed in order of signing, and what verified before still does.", "quantifier": "every sequence of signing calls", "why_tests_cant": "All histories.", "anchors": ["httpsig-hyper/src/hyper_http.rs: set_message_signature, verify_message_signature"]}
{"id": "C48", "title": "Re-used signature names", "statement": "Two signatures with the same name do not silently replace each other: both can be verified after signing.", "quantifier": "every pair of signatures with the same name", "why_tests_cant": "Needs reasoning about dictionary overriding for all values.", "anchors": ["httpsig-hyper/src/hyper_http.rs: set_message_signatures", "httpsig/src/signature_base.rs: try_parse"]}
{"id": "C49", "title": "Content digest round-trip", "statement": "verify_content_digest succeeds on the message returned by set_content_digest and returns it unchanged.", "quantifier": "every message, every body and both hash types", "why_tests_cant": "Unbounded bodies, any chunking.", "anchors": ["httpsig-hyper/src/hyper_content_digest.rs: set_content_digest, verify_content_digest"]}
{"id": "C50", "title": "Content digest soundness", "statement": "If verify_content_digest succeeds, the first content-digest header line holds exactly one member, named sha-256 or sha-512, whose bytes equal that hash of the body; the returned message has the same headers and body bytes.", "quantifier": "every message", "why_tests_cant": "All header values and bodies.", "anchors": ["httpsig-hyper/src/hyper_content_digest.rs: verify_content_digest, extract_content_digest, is_equal_digest"]}
{"id": "C51", "title": "Content digest detects body changes", "statement": "After set_content_digest, replacing the body by one with a different hash makes verify_content_digest fail with InvalidContentDigest.", "quantifier": "every pair of bodies", "why_tests_cant": "For-all-pairs statement.", "anchors": ["httpsig-hyper/src/hyper_content_digest.rs: verify_content_digest"]}
{"id": "C52", "title": "Setting a digest is local and idempotent", "statement": "set_content_digest replaces every earlier content-digest value by exactly one, changes no other header and neither method, URI, status nor body bytes; repeating it with the same type changes nothing.", "quantifier": "every message and history of calls", "why_tests_cant": "All header maps and histories.", "anchors": ["httpsig-hyper/src/hyper_content_digest.rs: set_content_digest"]}
{"id": "C53", "title": "All content-digest header lines are checked", "statement": "verify_content_digest never accepts a message one of whose content-digest header lines disagrees with the body.", "quantifier": "every message with several content-digest lines", "why_tests_cant": "Multi-line headers.", "anchors": ["httpsig-hyper/src/hyper_content_digest.rs: extract_content_digest"]}
{"id": "C54", "title": "Signature over content-digest protects the body", "statement": "If two messages carry the same signature covering content-digest with a single digest line, both pass digest verification, and the key saw the same bytes for both, then the bodies have the same hash.", "quantifier": "every pair of messages", "why_tests_cant": "For-all-pairs end-to-end statement across both crates.", "anchors": ["httpsig-hyper/src/hyper_content_digest.rs: verify_content_digest", "httpsig-hyper/src/hyper_http.rs: build_signature_base"]}
{"id": "C55", "title": "Results do not depend on scheduling", "statement": "Signing and verifying several signatures concurrently gives, for every order in which the futures are polled, the results in the order of the arguments.", "quantifier": "every polling schedule", "why_tests_cant": "All interleavings.", "anchors": ["httpsig-hyper/src/hyper_http.rs: set_message_signatures, verify_message_signatures_inner (join_all)"]}
{"id": "C56", "title": "Blocking functions equal the async ones", "statement": "Each *_sync function returns what the async function with the same arguments resolves to and has the same effect on the message.", "quantifier": "every message and argument", "why_tests_cant": "All inputs.", "anchors": ["httpsig-hyper/src/hyper_http.rs: MessageSignatureReqSync, MessageSignatureResSync"]}
{"id": "C57", "title": "The alg parameter is honoured", "statement": "A signature whose alg parameter names an algorithm different from the verifying key's algorithm is not accepted.", "quantifier": "every message and key", "why_tests_cant": "All combinations of alg and key types.", "anchors": ["httpsig-hyper/src/hyper_http.rs: verify_message_signatures_inner", "httpsig/src/signature_base.rs: verify_signature_headers"]}
{"id": "C58", "title": "A missing covered header is not the same as an empty one", "statement": "Signing or verifying with a covered HTTP field that the message does not have fails, and so does a dictionary key that is not there.", "quantifier": "every message and identifier", "why_tests_cant": "All messages lacking the header.", "anchors": ["httpsig-hyper/src/hyper_http.rs: extract_http_field", "httpsig/src/message_component/component.rs: build_http_field_component"]}
{"id": "C59", "title": "@request-target and @method identify the request", "statement": "Two requests with different request targets (or different methods) never have the same @request-target (or @method) value.", "quantifier": "every pair of requests", "why_tests_cant": "For-all-pairs statement; OPTIONS requests and methods differing in case break it.", "anchors": ["httpsig-hyper/src/hyper_http.rs: extract_derived_component", "httpsig/src/message_component/component.rs: build_derived_component"]}
{"id": "C60", "title": "One bad signature does not affect the others", "statement": "Adding a further signature to a message, however malformed, does not make verification of an existing valid signature fail.", "quantifier": "every message and every additional signature", "why_tests_cant": "All malformed additions.", "anchors": ["httpsig/src/signature_base.rs: try_parse", "httpsig-hyper/src/hyper_http.rs: extract_signatures_inner, verify_message_signatures_inner"]}
{"id": "C61", "title": "Digest comparison takes constant time", "statement": "The time taken to compare digests does not depend on the position of the first difference.", "quantifier": "every pair of digests", "why_tests_cant": "Timing is not observable in unit tests.", "anchors": ["httpsig-hyper/src/hyper_content_digest.rs: is_equal_digest"]}
{"id": "C62", "title": "A key verifies what its secret half signs", "statement": "For every secret key, data and randomness, sign succeeds and the signature is accepted for the same data by the public key and by the secret key used as a verifying key (given correct primitives); the same holds for shared keys.", "quantifier": "every key of every supported type, every data, every randomness", "why_tests_cant": "All keys and data; the glue code selects the primitive per key type.", "anchors": ["httpsig/src/crypto/asymmetric.rs: SecretKey::sign, PublicKey::verify, SecretKey::verify", "httpsig/src/crypto/symmetric.rs: sign, verify"]}
{"id": "C63", "title": "Signing at once or one after the other", "statement": "set_message_signatures with several jobs succeeds exactly if set_message_signature succeeds for the jobs one after the other, and leaves the same message, when no job covers the signature headers.", "quantifier": "every message and job list", "why_tests_cant": "All job lists; relies on added signature headers not changing later bases.", "anchors": ["httpsig-hyper/src/hyper_http.rs: set_message_signatures, set_message_signature"]}
{"id": "C64", "title": "Signing refuses what cannot be verified", "statement": "If set_message_signature succeeds, the signature headers of the message can be parsed again: neither the name nor the params make verification of this or of earlier signatures impossible.", "quantifier": "every name and params", "why_tests_cant": "All texts of names and params.", "anchors": ["httpsig-hyper/src/hyper_http.rs: set_message_signatures", "httpsig/src/signature_base.rs: HttpSignatureHeaders::try_parse"]}
{"id": "C65", "title": "Cancelled signing leaves the message alone", "statement": "Dropping the future of set_message_signatures before it has finished leaves the message unchanged; the futures of signing and verification finish with the first poll in which every inner future is polled, and change nothing afterwards.", "quantifier": "every message, job list and prefix of every polling schedule", "why_tests_cant": "Cancellation at every possible point.", "anchors": ["httpsig-hyper/src/hyper_http.rs: set_message_signatures, verify_message_signatures"]}
{"id": "C66", "title": "Digests do not depend on how the body arrives", "statement": "set_content_digest and verify_content_digest give the same result however the body is cut into frames, whatever trailers it has and however often it is pending.", "quantifier": "every body, chunking and pattern of pending polls", "why_tests_cant": "All interleavings of arrival and polling.", "anchors": ["httpsig-hyper/src/hyper_content_digest.rs: into_bytes, into_bytes_with_digest, set_content_digest, verify_content_digest"]}
{"id": "C67", "title": "MACs have 32 bytes", "statement": "Verification with a shared key accepts only signatures of exactly 32 bytes: every truncated, extended or empty MAC is rejected with InvalidSignature, never with a panic, and the signature that verify_message_signature names for a shared key has 32 bytes.", "quantifier": "every key, message and byte sequence", "why_tests_cant": "All MAC lengths and contents.", "anchors": ["httpsig/src/crypto/symmetric.rs: verify", "httpsig-hyper/src/hyper_http.rs: verify_message_signature"]}
{"id": "C68", "title": "Digests have the length of their algorithm", "statement": "verify_content_digest succeeds only if the digest has 32 bytes for sha-256 and 64 bytes for sha-512; other lengths give InvalidContentDigest. The header line that set_content_digest writes has 54 or 98 characters.", "quantifier": "every message and digest value", "why_tests_cant": "All digest lengths and bodies.", "anchors": ["httpsig-hyper/src/hyper_content_digest.rs: is_equal_digest, verify_content_digest, set_content_digest"]}
{"id": "C69", "title": "The default workflow is safe for every key", "statement": "Key ids of library keys have 44 characters and need no escaping. Params made with try_new, set_key_info, set_alg, set_random_nonce and short times sign messages such that verification with the other key of the pair succeeds, also if the receiver asks for the key id of its own key.", "quantifier": "every key pair, message, list of components without quotes and backslashes and list of such calls", "why_tests_cant": "All keys and call sequences; needs that no base64 key id can break the parameter syntax.", "anchors": ["httpsig/src/signature_params.rs: set_key_info, set_random_nonce, set_alg", "httpsig/src/crypto/symmetric.rs: key_id", "httpsig/src/crypto/asymmetric.rs: key_id", "httpsig-hyper/src/hyper_http.rs: set_message_signature, verify_message_signature"]}
{"id": "C70", "title": "The clock matters only through expires", "statement": "The result of verification depends on the current time only through which received signatures have expired: without an expires parameter the clock is never looked at (a creation time in the future does not matter), and what is accepted at some time is accepted at every earlier time.", "quantifier": "every message, key and pair of clocks", "why_tests_cant": "All times and expiry values.", "anchors": ["httpsig/src/signature_params.rs: is_expired", "httpsig/src/signature_base.rs: verify_signature_headers", "httpsig-hyper/src/hyper_http.rs: verify_message_signatures"]}
{"id": "C71", "title": "Exactly when verification panics", "statement": "verify_message_signature panics exactly if the signature headers of the message make it panic (well-formed dictionaries with the same labels whose first unreadable member of Signature-Input has a negative time or an identifier item of a bad kind, see C84), or if some candidate signature that is not expired is checked with an ECDSA key and does not have the length of its signatures.", "quantifier": "every message, key and key id", "why_tests_cant": "Needs a complete description of all remote panics.", "anchors": ["httpsig/src/signature_params.rs: TryFrom<&ListEntry>", "httpsig/src/message_component/component_name.rs: TryFrom<&BareItem>", "httpsig/src/crypto/asymmetric.rs: verify", "httpsig-hyper/src/hyper_http.rs: verify_message_signature"]}
{"id": "C72", "title": "Labels are only names", "statement": "Renaming the labels of the signatures consistently in both headers does not change which signatures are accepted: verification returns the renamed label, or the same error.", "quantifier": "every message and every renaming that keeps different labels different", "why_tests_cant": "All renamings and dictionaries.", "anchors": ["httpsig/src/signature_base.rs: HttpSignatureHeaders::try_parse", "httpsig-hyper/src/hyper_http.rs: extract_signatures, verify_message_signatures"]}
{"id": "C73", "title": "Order of dictionary members", "statement": "The order and the parameters of the members of Signature do not influence verification at all; the order of Signature-Input can only change which of several valid signatures is named.", "quantifier": "every permutation of the members", "why_tests_cant": "All orders of unboundedly many signatures.", "anchors": ["httpsig/src/signature_base.rs: HttpSignatureHeaders::try_parse", "httpsig-hyper/src/hyper_http.rs: verify_message_signature"]}
{"id": "C74", "title": "Removing a signature", "statement": "Taking one signature out of both headers does not change the result if another one was accepted; adding one that can be read does not make a message unacceptable for keys that never panic.", "quantifier": "every message and label", "why_tests_cant": "All sets of signatures.", "anchors": ["httpsig/src/signature_base.rs: HttpSignatureHeaders::try_parse", "httpsig-hyper/src/hyper_http.rs: verify_message_signature"]}
{"id": "C75", "title": "Exactly which identifiers round-trip", "statement": "Printing an identifier and parsing the text gives the identifier back exactly if it is valid and none of its texts contains a double quote or a backslash.", "quantifier": "every value of the identifier type", "why_tests_cant": "The converse direction (every other identifier is lost or changed) cannot be sampled.", "anchors": ["httpsig/src/message_component/component_id.rs: HttpMessageComponentId::try_from, Display"]}
{"id": "C76", "title": "Exactly which signature params round-trip", "statement": "Printing signature params and parsing the text gives the params back exactly if times have at most 15 digits, texts are printable ASCII without double quotes and backslashes, and the identifiers are valid, free of such characters and different.", "quantifier": "every value of the params type", "why_tests_cant": "Both directions over all texts.", "anchors": ["httpsig/src/signature_params.rs: Display, TryFrom<&str>, TryFrom<&ListEntry>"]}
{"id": "C77", "title": "Exactly which signatures arrive as they were made", "statement": "Signing an unsigned message gives headers that hold exactly the signatures made if and only if all labels are different structured field keys and all params can be written as in C76. Signing a message that carries signatures gives exactly those and the ones made, behind them, under the same condition with the labels in use included. The same holds for any number of signing calls, one after the other, that all succeed.", "quantifier": "every message, list of jobs and key that returns bytes", "why_tests_cant": "All label and parameter texts, all numbers of signatures.", "anchors": ["httpsig/src/signature_base.rs: HttpSignatureHeaders", "httpsig-hyper/src/hyper_http.rs: set_message_signatures, extract_signature_headers_with_name"]}
{"id": "C78", "title": "Exactly which component lines round-trip", "statement": "Parsing a printed component line gives the identifier back exactly if the identifier is valid and contains no double quote, backslash or colon; the value is then the printed value without surrounding whitespace.", "quantifier": "every component", "why_tests_cant": "Both directions over all identifiers and values.", "anchors": ["httpsig/src/message_component/component.rs: TryFrom<&str> for HttpMessageComponent, Display"]}
{"id": "C79", "title": "Header values are read by the structured field grammar", "statement": "The library understands a header value as a structured item, list or dictionary exactly if the grammar of RFC 9651 gives the text that meaning (a repeated key keeps its first place and its last value; base64 padding is optional), and the grammar gives no text two meanings.", "quantifier": "every text and every value", "why_tests_cant": "A grammar has infinitely many texts; that nothing else is accepted cannot be sampled.", "anchors": ["httpsig/src/message_component/component_param.rs: handle_params_sf, handle_params_key_into", "httpsig-hyper/src/hyper_content_digest.rs: extract_content_digest", "httpsig/src/signature_base.rs: HttpSignatureHeaders::try_parse"]}
{"id": "C80", "title": "The texts of a component identifier", "statement": "A text parses as a component identifier exactly if it is, up to white space around it, the structured item of the identifier (a string with the parameters sf, bs, tr, req, key, name allowed for that component), or its string without the double quotes; no text denotes two identifiers.", "quantifier": "every text and identifier", "why_tests_cant": "Both directions over all texts, including escapes and Unicode white space.", "anchors": ["httpsig/src/message_component/component_id.rs: HttpMessageComponentId::try_from", "httpsig/src/message_component/component_name.rs: TryFrom<&BareItem>", "httpsig/src/message_component/component_param.rs: TryFrom<(&str, &BareItem)>"]}
{"id": "C81", "title": "The texts of the signature headers", "statement": "Signature params are read from a text exactly if it is a list of one inner list whose items denote different identifiers and whose times are not negative, with the values of the last parameter of each known name. A message holds exactly the signatures whose names are keys of both dictionaries, made of the parameters in Signature-Input and the byte sequence in Signature.", "quantifier": "every text, and every pair of header values", "why_tests_cant": "Both directions over all header texts.", "anchors": ["httpsig/src/signature_params.rs: TryFrom<&str>, TryFrom<&ListEntry>", "httpsig/src/signature_base.rs: HttpSignatureHeaders::try_parse"]}
{"id": "C82", "title": "Values are serialized to their only canonical text", "statement": "A structured item, list or dictionary is serialized, for component values with the parameters sf and key, to exactly its canonical text (RFC 9651 section 4.1: no needless zeros, signs or spaces, padded base64, true left out). Each non-empty value has exactly one canonical text, and that text denotes the value.", "quantifier": "every list of field lines", "why_tests_cant": "All structured values, numbers and strings.", "anchors": ["httpsig/src/message_component/component_param.rs: handle_params_sf, handle_params_key_into", "httpsig/src/message_component/component.rs: TryFrom<(&HttpMessageComponentId, &[String])>"]}
{"id": "C83", "title": "What is sent is canonical", "statement": "Identifiers, signature params and the Signature, Signature-Input and Content-Digest lines that the library writes are the canonical structured field texts of their meaning, if no text in them contains a double quote or a backslash. Params are written in the order created, expires, nonce, alg, keyid, tag.", "quantifier": "every identifier, params value, signature and body", "why_tests_cant": "All params, names and digests.", "anchors": ["httpsig/src/message_component/component_id.rs: Display", "httpsig/src/signature_params.rs: Display", "httpsig/src/signature_base.rs: signature_header_value, signature_input_header_value", "httpsig-hyper/src/hyper_content_digest.rs: set_content_digest"]}
{"id": "C84", "title": "Exactly which inputs panic", "statement": "Parsing an identifier panics exactly on texts whose name starts with an at sign and is none of the ten derived names; parsing signature params panics exactly on one inner list with such an identifier behind readable ones, or with readable identifiers, no duplicate and a negative created or expires. Inspecting a message panics exactly if its two signature headers are dictionaries with the same names, of byte sequences and inner lists, and the first unreadable inner list is of that kind.", "quantifier": "every text, message, key, key id and clock", "why_tests_cant": "The set of texts on which nothing may panic is infinite; tests try a few.", "anchors": ["httpsig/src/message_component/component_name.rs: DerivedComponentName::from", "httpsig/src/signature_params.rs: TryFrom<&ListEntry>, TryFrom<&str>", "httpsig/src/signature_base.rs: HttpSignatureHeaders::try_parse", "httpsig-hyper/src/hyper_http.rs: verify_message_signature, get_alg_key_ids, get_signature_params"]}
{"id": "C85", "title": "Which error content digests give", "statement": "Verifying a content digest fails with NoDigestHeader exactly if the message has no Content-Digest line, with an error about the text if the first line is not visible ASCII, with InvalidHeaderValue if it is not a dictionary with the single member sha-256 or sha-512, a byte sequence, with HttpBodyError if the body cannot be read, and with InvalidContentDigest if all this is in order and the digest is another one. Setting a digest fails only with HttpBodyError, exactly if the body cannot be read. A digest name is refused exactly if it is neither sha-256 nor sha-512.", "quantifier": "every message, body and hash function", "why_tests_cant": "Each error must come from its own cause for all messages; tests look at one message per error or only at success.", "anchors": ["httpsig-hyper/src/hyper_content_digest.rs: verify_content_digest, set_content_digest, extract_content_digest, ContentDigestType::from_str"]}
{"id": "C86", "title": "Which error reading and verifying signatures gives", "statement": "All functions that read the signatures of a message report the same error: NoSignatureHeaders exactly if one of the two headers is missing, then unprintable bytes, then headers that are no dictionaries, then names or value kinds that do not fit, then the first member of Signature-Input that is not readable. Verification with one key otherwise reports NoSignatureHeaders exactly if no readable signature is left after the selection by key id, and InvalidSignature exactly if each of those is refused. Verification of a list of keys fails as a whole only with an error of the headers.", "quantifier": "every message, key, key id and clock", "why_tests_cant": "The order of the checks over all messages with several defects.", "anchors": ["httpsig/src/signature_base.rs: HttpSignatureHeaders::try_parse", "httpsig-hyper/src/hyper_http.rs: extract_signature_headers_with_name, verify_message_signature, verify_message_signatures, get_alg_key_ids, get_signature_params"]}
{"id": "C87", "title": "Which error building and signing gives", "statement": "A covered component that has no value in the message is reported with the error of its cause: a field or derived component with a parameter that does not apply, a derived component of the other message kind, unprintable bytes, a structured field parameter on another text, or a parameter that is not implemented. Building a signature base reports the first such component. Signing reports the first job without base, then the first key that fails, then InvalidHeaderValue exactly if a header line is not visible text. Signing panics exactly if a key does.", "quantifier": "every message, request, params, list of jobs and keys", "why_tests_cant": "All combinations of components and parameters, with several defects at once.", "anchors": ["httpsig-hyper/src/hyper_http.rs: extract_http_field, extract_derived_component, extract_http_message_component, build_signature_base, set_message_signatures", "httpsig/src/message_component/component_param.rs: handle_params_sf, handle_params_key_into", "httpsig/src/message_component/component.rs: TryFrom<(&HttpMessageComponentId, &[String])>"]}
{"id": "C88", "title": "Which error parsing texts gives", "statement": "An identifier text is refused with ParseSFVError exactly if it is no structured item, then with InvalidComponentName if the item is no string, then with InvalidComponentParam if a parameter has no meaning, then with InvalidComponentId if a parameter is not allowed for the component. A params text reports no list, the wrong shape, the first identifier not read, or a repeated identifier. A component line is read exactly if the text before its first colon is quoted and denotes an identifier, and the value is what follows the colon without white space.", "quantifier": "every text", "why_tests_cant": "All texts with any number of defects.", "anchors": ["httpsig/src/message_component/component_id.rs: HttpMessageComponentId::try_from", "httpsig/src/message_component/component_name.rs: TryFrom<&BareItem>", "httpsig/src/message_component/component_param.rs: TryFrom<(&str, &BareItem)>", "httpsig/src/signature_params.rs: TryFrom<&str>", "httpsig/src/message_component/component.rs: TryFrom<&str> for HttpMessageComponent"]}
{"id": "C89", "title": "Which errors and panics keys give", "statement": "Reading a secret key fails only with ParsePrivateKeyError and panics exactly if the file is a valid key file of the algorithm whose key octets have the wrong length, or plain octets have the wrong length. Reading a public key fails only with ParsePublicKeyError and never panics. A shared key text that is not base64 is refused with Base64DecodeError whatever the algorithm, another one with InvalidAlgorithmName unless the algorithm is HMAC. Asymmetric verification gives ParseSignatureError exactly for octets of the right length that are no signature, and InvalidSignature exactly for a signature that does not fit.", "quantifier": "every key text, octets, algorithm and feature choice", "why_tests_cant": "All malformed files and lengths.", "anchors": ["httpsig/src/crypto/asymmetric.rs: SecretKey::from_bytes, from_der, from_pem, PublicKey::from_bytes, from_pem, verify", "httpsig/src/crypto/symmetric.rs: SharedKey::from_base64"]}
{"id": "C90", "title": "Only a SHA-2 collision makes two bodies pass for one digest", "statement": "If two bodies are accepted with the same Content-Digest, or with two messages in which the signing key saw the same bytes with the digest covered, the bodies are equal, or computing their two hashes shows two different inputs of the SHA-2 compression function with the same result. The hash used is that of FIPS 180-4: its constants are the root bits of the first primes, each block is processed by the message schedule and rounds described there, and the hash is the state after the padded blocks.", "quantifier": "every message, body of less than 2^60 bytes, key and label", "why_tests_cant": "No test finds or excludes a collision; the reduction quantifies over all pairs of bodies.", "anchors": ["httpsig-hyper/src/hyper_content_digest.rs: set_content_digest, verify_content_digest, derive_digest", "httpsig-hyper/src/hyper_http.rs: verify_message_signature"]}
{"id": "C91", "title": "Only a SHA-256 collision makes one MAC fit two messages", "statement": "If a shared key accepts the same MAC for two byte strings, these are equal, or computing the two MACs shows a collision of the compression function of SHA-256. The MAC is that of RFC 2104 with SHA-256, and no other is accepted. So a signature with a shared key that is moved to another message is accepted only if every covered component has the same value there, and with a covered content digest only if the body is the same, or such a collision is shown.", "quantifier": "every shared key, message and signature", "why_tests_cant": "All pairs of messages.", "anchors": ["httpsig/src/crypto/symmetric.rs: SharedKey::sign, verify", "httpsig-hyper/src/hyper_http.rs: verify_message_signature"]}
{"id": "C92", "title": "Different shared keys accept different MACs", "statement": "If two shared keys accept the same MAC for the same bytes, the keys are equal, or computing the MACs shows a collision of SHA-256.", "quantifier": "every pair of shared keys, bytes and MAC", "why_tests_cant": "All pairs of keys.", "anchors": ["httpsig/src/crypto/symmetric.rs: SharedKey::verify, key_id"]}
{"id": "C93", "title": "Key ids identify keys", "statement": "Two keys, public or shared, with the same key id have the same encoding, or computing the two key ids shows a collision of the compression function of SHA-256.", "quantifier": "every pair of keys", "why_tests_cant": "All pairs of keys.", "anchors": ["httpsig/src/crypto/asymmetric.rs: PublicKey::key_id", "httpsig/src/crypto/symmetric.rs: SharedKey::key_id"]}
{"id": "C94", "title": "Signature bases sign their own text", "statement": "For a signature base made from component lines and params, build_raw_signature returns what the key makes of the UTF-8 bytes of the text of the base (one line per component, then the @signature-params line), and build_signature_headers succeeds exactly if the key does; the result has that signature, the params of the base and the given name, or sig without one. The matching key then accepts the result with the same base until it has expired, and afterwards ExpiredSignatureParams is reported.", "quantifier": "every list of component lines, params, key, name and time", "why_tests_cant": "All lines, params and keys; a test signs one base.", "anchors": ["httpsig/src/signature_base.rs: HttpSignatureBase::build_raw_signature, build_signature_headers, verify_signature_headers"]}
{"id": "C95", "title": "A base is only verified with its own params", "statement": "HttpSignatureBase::verify_signature_headers accepts a signature only if the params in the headers are the params of the base, and these have not expired.", "quantifier": "every base, headers, key and time", "why_tests_cant": "All pairs of a base and headers; tests verify with the headers made from the base.", "anchors": ["httpsig/src/signature_base.rs: HttpSignatureBase::verify_signature_headers"]}
{"id": "C96", "title": "Adding the req parameter", "statement": "add_req_param adds req behind the parameters of an identifier, or changes nothing if it is there; the name and the other parameters stay, and doing it twice is doing it once. The result is an identifier that can be parsed, printed as before with ;req behind, and, without quotes and backslashes in the identifier, read back from this text. In a response to a request the resulting component has exactly the value, or the error, that the component has in the request.", "quantifier": "every identifier, request and response", "why_tests_cant": "All identifiers with all parameter sets, and all messages.", "anchors": ["httpsig/src/message_component/component_id.rs: HttpMessageComponentId::add_req_param", "httpsig-hyper/src/hyper_http.rs: build_signature_base"]}
{"id": "C97", "title": "Which component values have a key", "statement": "A component value made of a key and a text prints as the text, is key=text as field value, and is not told apart from the text alone in a signature base. Components parsed from lines, and components made from values for all identifiers except @signature-params, have no key and one text. @signature-params takes its first value without surrounding white space, cut at the first equals sign; it fails if there is none or if the identifier has a parameter other than req and name.", "quantifier": "every component value, identifier and list of values", "why_tests_cant": "All values with equals signs and white space at any place.", "anchors": ["httpsig/src/message_component/component_value.rs: HttpMessageComponentValue::key, as_field_value, as_component_value", "httpsig/src/message_component/component.rs: build_derived_component"]}
{"id": "C98", "title": "Inspection functions agree about a signature", "statement": "For every signature that extract_signatures returns, the base reports the keyid, alg, nonce and covered components of the params in the headers; get_signature_params returns these params under the same name, and get_alg_key_ids the same key id and the algorithm that the alg text names, if it is supported.", "quantifier": "every message, associated request and feature choice", "why_tests_cant": "All messages with any number of signatures.", "anchors": ["httpsig/src/signature_base.rs: HttpSignatureBase::keyid, alg, nonce, covered_components", "httpsig-hyper/src/hyper_http.rs: extract_signatures, get_signature_params, get_alg_key_ids"]}
{"id": "C99", "title": "Body bytes with digest", "statement": "into_bytes_with_digest returns the data of the body in order without trailers, and the base64 of its hash, exactly if the body can be read. The Content-Digest line that set_content_digest writes is the printed algorithm name with this text between =: and :. The printed names are sha-256 and sha-512, and these are the only texts parsed as algorithm names.", "quantifier": "every body, hash function and algorithm", "why_tests_cant": "All bodies in all chunkings.", "anchors": ["httpsig-hyper/src/hyper_content_digest.rs: ContentDigest::into_bytes_with_digest", "httpsig-hyper/src/lib.rs: ContentDigestType"]}
{"id": "C100", "title": "A signature is only accepted with the parameters it was made with", "statement": "If verification accepts a message, then the parameters that get_signature_params reports for the accepted signature are those that were given to the signing function. In particular nobody without the key can change the nonce of a signature, so that remembering nonces protects against replayed messages.", "quantifier": "every signed message, key, clock and every change of its Signature-Input header", "why_tests_cant": "The changes are found by knowing which texts the printing code confuses, for all values of all parameters.", "anchors": ["httpsig/src/signature_params.rs: Display for HttpSignatureParams, TryFrom<&ListEntry>", "httpsig-hyper/src/hyper_http.rs: verify_message_signatures, get_signature_params"]}
{"id": "C101", "title": "Exactly which signature params share their text", "statement": "Signature params have the same printed text as other ones with the same covered components and times exactly if two of nonce, alg, keyid and tag are given, or the only one given contains a double quote, semicolon, the name of a later one of these four, an equals sign and a double quote in a row. Params with key information (set_key_info) always have such a twin.", "quantifier": "every signature params value", "why_tests_cant": "A statement about all pairs of values of four free texts.", "anchors": ["httpsig/src/signature_params.rs: Display for HttpSignatureParams, set_key_info"]}
{"id": "C102", "title": "Signatures are verified over the parameters as received", "statement": "Verification builds the text with the member of Signature-Input as it was received, as RFC 9421 section 3.2 demands: all parameters, known or not, in their order. So a signature that another implementation made according to the RFC is accepted, and any change of the parameters is noticed.", "quantifier": "every message, Signature-Input member, key and clock", "why_tests_cant": "A statement about all orders and all sets of parameters.", "anchors": ["httpsig/src/signature_params.rs: TryFrom<&ListEntry> for HttpSignatureParams, Display", "httpsig-hyper/src/hyper_http.rs: verify_message_signatures, extract_signatures"]}
{"id": "C103", "title": "Signatures survive transmission in origin form", "statement": "A request that a client makes with an absolute URI and signs is accepted by a server that receives it over HTTP/1.1, where the request line has only path and query and the authority is in the Host field; and the server's signature of the response over components of the request is accepted by the client.", "quantifier": "every request, covered components, key, clock and response", "why_tests_cant": "The tests verify the very object that was signed.", "anchors": ["httpsig-hyper/src/hyper_http.rs: extract_derived_component", "httpsig-hyper/src/hyper_http.rs: build_signature_base"]}
{"id": "C104", "title": "Field values follow RFC 9421 section 2.1", "statement": "The value of a field component without parameters is that of RFC 9421 section 2.1: each field line without the white space around it, joined by a comma and a space; a field that is not in the message is an error.", "quantifier": "every list of field lines", "why_tests_cant": "A statement about all texts with and without white space.", "anchors": ["httpsig/src/message_component/component.rs: build_http_field_component", "httpsig-hyper/src/hyper_http.rs: extract_http_field"]}
{"id": "C105", "title": "Structured field components are taken from the field as a whole", "statement": "With sf or key the field lines together are read as one structured field, as RFC 9421 sections 2.1.1 and 2.1.2 demand: sf gives the canonical text of the whole list or dictionary, where the last of several members with the same key counts, and key gives the canonical text of that one member and fails if there is none.", "quantifier": "every list of field lines and key", "why_tests_cant": "A statement about all divisions of a structured field into lines.", "anchors": ["httpsig/src/message_component/component.rs: build_http_field_component", "httpsig/src/message_component/component_param.rs: handle_params_sf, handle_params_key_into"]}
{"id": "C106", "title": "@query-param follows RFC 9421 section 2.2.8", "statement": "The value of @query-param;name=n is that of RFC 9421 section 2.2.8: the query is read as a form (plus is a space, percent escapes are bytes), the only parameter whose encoded name is n is taken and its value is encoded again; no or several parameters with this name are an error.", "quantifier": "every query and name", "why_tests_cant": "A statement about all texts that denote the same parameters.", "anchors": ["httpsig/src/message_component/component.rs: build_derived_component (QueryParam)", "httpsig-hyper/src/hyper_http.rs: extract_derived_component (QueryParam)"]}
{"id": "C107", "title": "Derived components follow RFC 9421 section 2.2 for absolute URIs", "statement": "For every request with an absolute URI the derived components are those of RFC 9421 section 2.2: the method as it is, the target URI, the lower-case authority without the default port of the scheme, the lower-case scheme, the request target that is sent, the path and the query.", "quantifier": "every method, scheme, authority, path and query", "why_tests_cant": "A statement about all URIs and methods.", "anchors": ["httpsig/src/message_component/component.rs: build_derived_component", "httpsig-hyper/src/hyper_http.rs: extract_derived_component"]}
{"id": "C108", "title": "Signatures can cover other signatures of the message", "statement": "A message that has signatures can be signed again with the Signature or Signature-Input field among the covered components, whole or one member of it (RFC 9421 section 4.3), and the new signature is accepted in the message that it was added to. Adding further signatures under other names leaves these signatures valid.", "quantifier": "every signed message, covered components, key, clock and number of signatures", "why_tests_cant": "The tests never cover the signature headers; the statement is about all messages and all names.", "anchors": ["httpsig-hyper/src/hyper_http.rs: set_message_signatures, verify_message_signatures, extract_http_field", "httpsig/src/message_component/component_param.rs: handle_params_key_into"]}
{"id": "C109", "title": "@signature-params cannot be covered", "statement": "Signing refuses covered components with @signature-params, which RFC 9421 section 2.3 forbids there, and no signature that covers it is accepted.", "quantifier": "every message, covered components and key", "why_tests_cant": "A statement about all messages with all sets of signatures.", "anchors": ["httpsig-hyper/src/hyper_http.rs: extract_derived_component (SignatureParams)", "httpsig/src/message_component/component.rs: build_derived_component"]}
{"id": "C110", "title": "Which private key files are read", "statement": "SecretKey::from_der reads exactly the PKCS#8 documents (in DER, shorter than 2^28 bytes) whose algorithm identifier is that of the given algorithm and whose key octets hold a secret key, and the key is the one of those octets; SecretKey::from_pem reads such documents with the label PRIVATE KEY. A document has one algorithm (up to the two uses of RSA) and one secret key. Reading panics exactly for documents of the right algorithm whose key octets have not the length of a secret key.", "quantifier": "every byte string and algorithm, every behaviour of the cryptographic primitives", "why_tests_cant": "A statement about all byte strings; the tests read one file for each algorithm.", "anchors": ["httpsig/src/crypto/asymmetric.rs: SecretKey::from_der, SecretKey::from_pem"]}
{"id": "C111", "title": "Ed25519 private key files are those of RFC 8410", "statement": "SecretKey::from_der with Ed25519 reads only documents of RFC 8410 section 7: the algorithm identifier has no parameters and the key octets are a DER octet string with the 32 bytes of the seed. Every such document is read and gives its seed.", "quantifier": "every byte string", "why_tests_cant": "A statement about all byte strings.", "anchors": ["httpsig/src/crypto/asymmetric.rs: SecretKey::from_der (Ed25519)"]}
{"id": "C112", "title": "EC private key files are consistent", "statement": "SecretKey::from_der reads an EC private key only if the curve named inside the EC structure (RFC 5915) is that of the algorithm identifier and the public key inside it is the one of the secret key. Every document of RFC 5915 with a valid scalar is read and gives its scalar.", "quantifier": "every byte string, both curves", "why_tests_cant": "A statement about all byte strings.", "anchors": ["httpsig/src/crypto/asymmetric.rs: SecretKey::from_der (EC)"]}
{"id": "C113", "title": "Which public key files are read", "statement": "PublicKey::from_pem reads exactly the texts with the label PUBLIC KEY that hold a SubjectPublicKeyInfo in DER whose algorithm identifier is that of the given algorithm and whose bit string of whole octets is a public key, and the key is the one of those octets. A document has one algorithm (up to the two uses of RSA) and one public key; EC keys have one document for each encoding of the point.", "quantifier": "every byte string and algorithm, every behaviour of the cryptographic primitives", "why_tests_cant": "A statement about all byte strings.", "anchors": ["httpsig/src/crypto/asymmetric.rs: PublicKey::from_pem"]}
{"id": "C114", "title": "Which RSA public keys are read, and their key ids", "statement": "PublicKey::from_pem with an RSA algorithm reads exactly the SubjectPublicKeyInfo documents whose key octets are an RSAPublicKey of PKCS#1 in DER (modulus and exponent, both written as numbers without sign in the shortest form, nothing behind them) with numbers that the RSA implementation accepts. Modulus and exponent determine the key octets and are determined by them. The key id is the base64 text of the SHA-256 hash of these octets.", "quantifier": "every byte string, every choice of the numbers that are accepted", "why_tests_cant": "A statement about all byte strings and all numbers; the tests read one key.", "anchors": ["httpsig/src/crypto/asymmetric.rs: PublicKey::from_pem, PublicKey::from_bytes (RSA), PublicKey::key_id"]}
{"id": "C115", "title": "RSA private keys and their public halves", "statement": "SecretKey::from_der with an RSA algorithm reads exactly the PKCS#8 documents whose key octets are an RSAPrivateKey of two primes (version 0, eight numbers in the shortest form, nothing behind them) with numbers that the RSA implementation accepts; it never panics. The public half of such a key is the public key that is read from a public file with the same modulus and exponent, and of no other. If a private and a public file have keys with the same key id then they belong together, or computing the key ids shows a collision of SHA-256.", "quantifier": "every private and public file, every choice of the numbers that are accepted", "why_tests_cant": "A statement about all pairs of files.", "anchors": ["httpsig/src/crypto/asymmetric.rs: SecretKey::from_der, SecretKey::from_bytes (RSA), SecretKey::public_key, PublicKey::key_id"]}
