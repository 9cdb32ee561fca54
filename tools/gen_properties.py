#!/usr/bin/env python3
"""Writes ../properties.jsonl (one JSON object per line)."""
import json, os
P = []
def p(id, title, statement, quantifier, why, anchors):
    P.append(dict(id=id, title=title, statement=statement, quantifier=quantifier, why_tests_cant=why, anchors=anchors))

ID="httpsig/src/message_component/component_id.rs"
NM="httpsig/src/message_component/component_name.rs"
PM="httpsig/src/message_component/component_param.rs"
CV="httpsig/src/message_component/component_value.rs"
CO="httpsig/src/message_component/component.rs"
SP="httpsig/src/signature_params.rs"
SB="httpsig/src/signature_base.rs"
UT="httpsig/src/util.rs"
CR="httpsig/src/crypto/mod.rs"
SY="httpsig/src/crypto/symmetric.rs"
AS="httpsig/src/crypto/asymmetric.rs"
HH="httpsig-hyper/src/hyper_http.rs"
HD="httpsig-hyper/src/hyper_content_digest.rs"
HL="httpsig-hyper/src/lib.rs"

p("C01","Component identifier text round-trips",
  "Printing a component identifier with to_string and parsing the text with HttpMessageComponentId::try_from gives back the same identifier (same name, same parameters in the same order), for every identifier that try_from can produce.",
  "every component identifier obtainable by parsing any string",
  "Identifier names and key/name parameter values are arbitrary strings; a test only samples some of them, and the failing ones (values containing a double quote or a backslash) are exactly those nobody samples.",
  [f"{ID}: HttpMessageComponentId::try_from, Display", f"{NM}: Display", f"{PM}: Display"])
p("C02","Component identifiers are validated",
  "Whenever HttpMessageComponentId::try_from returns Ok, the name is either an HTTP field (text not starting with '@') or one of the ten derived components; a `name` parameter occurs only on @query-param; sf, bs, tr and key occur only on HTTP fields; and no parameter occurs twice.",
  "every input string", "The input is an arbitrary untrusted string.",
  [f"{ID}: HttpMessageComponentId::try_from", f"{NM}: TryFrom<&BareItem>", f"{PM}: TryFrom<(&str,&BareItem)>"])
p("C03","Quoted and unquoted identifiers agree",
  "For every nonempty text without a double quote and without surrounding whitespace, parsing `name` and parsing `\"name\"` give the same result (identifier or error), and surrounding whitespace never changes the result of parsing an identifier.",
  "every nonempty trimmed string without double quotes; every string and every amount of surrounding whitespace", "Unbounded set of strings.",
  [f"{ID}: HttpMessageComponentId::try_from"])
p("C04","Identifier equality ignores parameter order and agrees with hashing",
  "Two identifiers compare equal exactly when the names are equal and the parameter sets are equal as sets; the comparison is an equivalence relation; and equal identifiers feed the same data to any hasher.",
  "every pair/triple of identifiers, every hasher", "Eq/Hash consistency is a for-all-pairs contract; a violation only shows on a particular pair.",
  [f"{ID}: derive(PartialEq, Eq, Hash)", f"{PM}: impl Hash for HttpMessageComponentParams"])
p("C05","Duplicate covered components are rejected, and only those",
  "HttpSignatureParams::try_new and the parsers of signature params fail with InvalidSignatureParams when two covered component identifiers are equal (also when their parameters are merely reordered), and never fail for that reason otherwise. The params made by try_new have the given components in the given order, the current time as created, and no other parameter.",
  "every list of component identifiers", "Lists of unbounded length; duplicates may be at any two positions.",
  [f"{SP}: HttpSignatureParams::try_new, TryFrom<&ListEntry>", f"{UT}: has_unique_elements"])
p("C06","Component line round-trips",
  "Parsing the printed line `<id>: <value>` of a component with HttpMessageComponent::try_from gives back its identifier and its value up to surrounding whitespace.",
  "every component with any identifier and any value", "Values are arbitrary text; an identifier containing a colon is split at the wrong place.",
  [f"{CO}: TryFrom<&str> for HttpMessageComponent, Display"])
p("C07","HTTP field component value",
  "Building an HTTP field component without sf/key/bs/tr/name parameters succeeds for every list of field values and its value is the field values in order, joined by a comma and a space; a bs, tr or name parameter always yields NotYetImplemented unless an earlier sf/key parameter already failed.",
  "every field name, every list of field values, every parameter list", "Unbounded lists of arbitrary values.",
  [f"{CO}: build_http_field_component"])
p("C08","sf parameter canonicalises",
  "With the sf parameter each field value that is a well-formed structured list or dictionary is replaced by its canonical text: the result parses to the same value, applying sf again changes nothing, and the number and order of values is kept; otherwise building the component fails.",
  "every list of field values", "The structured-field grammar is recursive; canonicalisation must hold for every value.",
  [f"{PM}: handle_params_sf", f"{CO}: build_http_field_component"])
p("C09","key parameter selects one dictionary member",
  "With the key parameter the component value consists of exactly the canonical texts of the members with that key of those field lines that contain it, in order; it fails if some line is not a dictionary; other members of the dictionaries never influence it.",
  "every list of field values and every key", "Unbounded dictionaries and lists.",
  [f"{PM}: handle_params_key_into", f"{CO}: build_http_field_component"])
p("C10","Derived component values follow RFC 9421 section 2.2",
  "For every request, the values of @method, @target-uri, @authority, @scheme, @request-target, @path and @query that get signed are: the method in upper case, the full URI text, the lower-cased authority, the lower-cased scheme, the request target (path and query; the authority for CONNECT and an asterisk for OPTIONS), the non-empty path (the text * in the asterisk form), and the query with a leading '?'; for a response @status is the three-digit status code.",
  "every request and response", "All methods and URI forms (origin, absolute, authority, asterisk form) must be covered.",
  [f"{HH}: extract_derived_component", f"{CO}: build_derived_component"])
p("C11","@query-param selection",
  "@query-param;name=\"n\" has as value exactly the values of the parameters of the query named n (text before the first '='), in order of appearance joined by a comma and a space; other query parameters never influence it. A query without any parameter is an error.",
  "every query string and every name", "Unbounded query strings with repeated, empty and '='-less segments.",
  [f"{HH}: extract_derived_component", f"{CO}: build_derived_component"])
p("C12","Signature params text round-trips",
  "HttpSignatureParams::try_from(params.to_string()) gives back params, for every params value built through the public API with identifiers that came from parsing.",
  "every params value", "All combinations of optional fields and arbitrary string fields; string fields containing a quote or backslash, integers of more than 15 digits break it.",
  [f"{SP}: Display for HttpSignatureParams, TryFrom<&str>, TryFrom<&ListEntry>"])
p("C13","Signed text determines the signature parameters",
  "Two received Signature-Input members that are rendered to the same @signature-params text in the signature base have the same created, expires, nonce, alg, keyid and tag: nobody can change a parameter without invalidating the signature.",
  "every pair of received signature inputs", "It is an injectivity statement over all pairs of inputs; the counterexamples use escaped quotes.",
  [f"{SP}: Display for HttpSignatureParams, TryFrom<&ListEntry>"])
p("C14","Signature-Input parameters are read as a map",
  "The parsed created/expires/nonce/alg/keyid/tag depend only on the last occurrence of each of these parameter names; unknown parameter names are ignored; the relative order of the parameters does not matter; a parameter whose value has the wrong type is treated as absent.",
  "every Signature-Input member", "Any number and order of parameters, repeated names.",
  [f"{SP}: TryFrom<&ListEntry> for HttpSignatureParams"])
p("C15","Parsing untrusted signature headers does not panic",
  "Verifying or inspecting a message never panics while parsing its Signature and Signature-Input headers, whatever their content.",
  "every pair of header texts", "Header texts are attacker-controlled and unbounded; the panicking ones (negative created/expires, unknown '@' names) are not in any test.",
  [f"{SP}: TryFrom<&ListEntry>", f"{NM}: From<&str> for DerivedComponentName", f"{SB}: HttpSignatureHeaders::try_parse"])
p("C16","Expiry test",
  "is_expired is true exactly when expires is present and strictly smaller than the current time in seconds; params without expires never expire; once expired, always expired while the clock does not go back.",
  "every params value and every clock reading", "Boundary and monotonicity over all 64-bit times.",
  [f"{SP}: is_expired"])
p("C17","set_expires_with_duration",
  "When created is set and created+duration fits in 64 bits, expires becomes created plus the given duration (300 when none is given) and nothing else changes; without created it panics; on 64-bit overflow the release build wraps around, so expires can lie before created.",
  "every params value and every duration", "Overflow only happens at the edge of the 64-bit range.",
  [f"{SP}: set_expires_with_duration, DEFAULT_DURATION"])
p("C18","Setters touch only their field",
  "After any sequence of set_* calls every field holds the argument of the last call that sets it, or its initial value if there was none; the covered components never change.",
  "every sequence of setter calls", "All histories of setter calls.",
  [f"{SP}: set_created, set_expires, set_nonce, set_alg, set_keyid, set_tag, set_key_info, set_random_nonce"])
p("C19","Signature base has the RFC 9421 section 2.5 layout",
  "The signature base is, for each covered component in order, its identifier, a colon, a space, its value and a newline, followed by \"@signature-params\": and the rendered parameters without a trailing newline.",
  "every list of component lines and params", "Unbounded number of lines.",
  [f"{SB}: Display for HttpSignatureBase, as_bytes"])
p("C20","Signature base is unambiguous",
  "If two signature bases, built from messages or otherwise with lines that carry the covered identifiers, have equal text and no identifier or value contains a newline, then they have the same number of lines, the same printed identifiers in the same order, the same component values and the same printed parameters.",
  "every pair of signature bases, including adversarial identifiers containing quotes, colons and spaces", "Injectivity over all pairs.",
  [f"{SB}: Display for HttpSignatureBase"])
p("C21","Signature base is only built from matching lines",
  "HttpSignatureBase::try_new succeeds exactly when the component lines have, in order, the covered component identifiers; on success the base contains these lines and params unchanged.",
  "every list of lines and params", "Unbounded lists.",
  [f"{SB}: HttpSignatureBase::try_new"])
p("C22","The bytes that get signed determine the base text",
  "as_bytes returns the UTF-8 encoding of the text; different texts give different bytes.",
  "every pair of texts", "Injectivity over all Unicode strings.",
  [f"{SB}: as_bytes"])
p("C23","Signature and Signature-Input members are paired by name",
  "When HttpSignatureHeaders::try_parse succeeds, the result has exactly the names of both headers, in Signature-Input order, and each entry has the params of the Signature-Input member and the bytes of the Signature member with that name; it fails when the name sets differ, when a Signature member is not a byte sequence or when a Signature-Input member is not an inner list.",
  "every pair of header texts", "Arbitrary dictionaries with repeated and reordered names.",
  [f"{SB}: HttpSignatureHeaders::try_parse"])
p("C24","Generated headers parse back",
  "For any list of generated signatures with distinct valid names, joining their signature_header_value and signature_input_header_value texts with a comma and a space and parsing them with try_parse returns exactly these signatures, params and names.",
  "every list of signatures", "Unbounded number of signatures with arbitrary bytes and params.",
  [f"{SB}: signature_header_value, signature_input_header_value, try_parse"])
p("C25","Base64 coding of signatures and keys",
  "Decoding the printed base64 text of a signature gives the same bytes; SharedKey::from_base64 accepts exactly canonical padded base64, so a key has only one accepted text.",
  "every byte string and every text", "Every length modulo 3, all bytes.",
  [f"{SB}: Display for HttpSignature", f"{SY}: SharedKey::from_base64", f"{HD}: into_bytes_with_digest"])
p("C26","Structured field values survive serialization",
  "Parsing the serialization of a structured item, list or dictionary returns the same value; appending a further dictionary text after a comma and a space to a dictionary text parses to the union in which later members override earlier ones.",
  "every well-formed structured field value", "Recursive grammar of unbounded size.",
  [f"{PM}: Parser uses", f"{SB}: Parser uses", f"{HH}: extract_signature_headers_with_name join"])
p("C27","Algorithm names",
  "AlgorithmName::from_str accepts exactly the registered names (case-sensitively; RSA names only with the rsa-signature feature), is the inverse of to_string, and different algorithms have different names.",
  "every string", "All strings must be rejected except six.",
  [f"{CR}: AlgorithmName::as_str, FromStr"])
p("C28","Shared-key MAC",
  "SharedKey::verify accepts a data/MAC pair exactly when the MAC is the one sign produces for that data; SharedKey::from_base64 never yields a key for an algorithm other than hmac-sha256.",
  "every key, data and MAC", "All byte strings, including truncated MACs.",
  [f"{SY}: SharedKey::sign, verify, from_base64"])
p("C29","Keys are bound to the requested algorithm",
  "If SecretKey::from_pem/from_der or PublicKey::from_pem succeeds for an algorithm, the key reports exactly that algorithm and the OIDs in the key file are those of that algorithm (RSA files being usable for both RSA algorithms); hmac-sha256 is always refused.",
  "every algorithm, every key file, with and without RSA support", "All key files and all mismatched algorithm choices.",
  [f"{AS}: SecretKey::from_der, from_pem, from_bytes, PublicKey::from_pem, from_bytes"])
p("C30","Key ids and algorithm of both halves agree",
  "A secret key and its public key report the same key_id and the same algorithm, as signing key and as verifying key; the key id is the base64 text of the SHA-256 of the public key bytes.",
  "every key", "All keys of all types.",
  [f"{AS}: SecretKey::key_id, alg, PublicKey::key_id", f"{SY}: key_id"])
p("C31","Verifying a signature of any length does not panic",
  "VerifyingKey::verify returns Ok or Err for every signature byte string.",
  "every key type, data and signature bytes", "Signature bytes come from the network; only lengths different from the curve size break it.",
  [f"{AS}: PublicKey::verify", f"{SY}: SharedKey::verify"])
p("C32","Sign then verify, requests",
  "After a successful set_message_signature on a request without signature headers, verify_message_signature with the matching key (and with no key id or the key id in the params) succeeds and returns the signature name, as long as the signature has not expired, no covered component is one of the signature headers themselves, the name is a structured field key and the params can be written as they are (C12). The shared and asymmetric keys of the library are matching pairs if the primitives are correct.",
  "every request, params, matching key pair, name, randomness and verification time", "All messages and parameters.",
  [f"{HH}: MessageSignatureReq for Request<D>"])
p("C33","Sign then verify, responses",
  "The same as C32 for responses, with request-bound components (req) taken from the same request at signing and at verification.",
  "every response, associated request, params, matching key pair, name and time", "All messages and parameters.",
  [f"{HH}: MessageSignatureRes for Response<D>"])
p("C34","Signing only appends signature headers",
  "set_message_signature(s) changes nothing but the signature and signature-input headers, and to these it only appends values, whether it succeeds or fails.",
  "every message, every list of signing jobs", "Frame condition over all messages and failure points.",
  [f"{HH}: set_message_signatures"])
p("C35","Signing many is all-or-nothing with respect to building and signing",
  "If building a base or signing fails for any job, the message is unchanged; if inserting a header value fails, the message gets complete signature pairs of a prefix of the jobs and never a signature-input without its signature.",
  "every message, job list and failure point", "Every failure point of every job list.",
  [f"{HH}: set_message_signatures"])
p("C36","Verification is exact",
  "verify_message_signature returns Ok(name) exactly when name is the first signature, in Signature-Input order, that has the requested key id (if one was requested), whose covered components can be extracted from the message, that has not expired, and whose signature bytes the key accepts for the signature base recomputed from the current message, provided that checking no candidate panics; otherwise it returns an error, or panics as in C15 and C31.",
  "every message, key, key id and clock", "Every combination of signatures in a message.",
  [f"{HH}: verify_message_signatures_inner, extract_signatures_inner"])
p("C37","Covered parts cannot be changed unnoticed",
  "If two messages carry the same signature name, signature bytes and signature input and both are presented to a key, the key sees the same bytes only if every covered component has the same value in both messages; so a key that accepts a signature for at most one byte string accepts at most one set of covered values.",
  "every pair of messages with the same signature input", "For-all-pairs statement about tampering.",
  [f"{HH}: build_signature_base", f"{SB}: as_bytes"])
p("C38","An expired signature is never accepted",
  "verify_message_signature never returns the name of a signature whose expires is smaller than the time at which it is checked, even if the key accepts it.",
  "every message, key and clock", "All times and all positions of the expired signature.",
  [f"{SB}: verify_signature_headers", f"{HH}: verify_message_signatures_inner"])
p("C39","Key id filter",
  "When a key id is given, only a signature whose keyid parameter equals it can be returned; if there is none, the error is NoSignatureHeaders and the key is never consulted.",
  "every message, key and key id", "All sets of signatures.",
  [f"{HH}: verify_message_signatures_inner"])
p("C40","Verifying several keys at once",
  "verify_message_signatures returns one result per given key, in order, each equal to what verify_message_signature returns for that key alone.",
  "every message and list of keys", "Unbounded lists.",
  [f"{HH}: verify_message_signatures, verify_message_signature"])
p("C41","req components",
  "A request signature covering a req component can neither be created nor verified; a response signature covering one needs the associated request; the value of such a component depends on the request only.",
  "every message, identifier and associated request", "All messages.",
  [f"{HH}: build_signature_base, extract_derived_component"])
p("C42","Derived components are only used where they exist",
  "@status cannot be signed or verified on a request; on a response, every derived component other than @status and @signature-params without req is refused; name is accepted on @query-param only and sf, key, bs and tr on no derived component.",
  "every message and identifier, including identifiers built without the parser", "All identifiers.",
  [f"{HH}: extract_derived_component"])
p("C43","Unsigned messages",
  "verify and the inspection functions return NoSignatureHeaders exactly when the signature or the signature-input header is missing (or, for verification, when no signature qualifies), and has_message_signature says exactly whether both are present.",
  "every message", "All header maps.",
  [f"{HH}: has_message_signature_inner, extract_signature_headers_with_name"])
p("C44","Inspection agrees with verification",
  "get_alg_key_ids, get_signature_params and extract_signatures list the same signatures in the same order with the same params; alg is None exactly when it is absent or not a supported name; extract_signatures omits exactly the signatures whose covered components cannot be extracted.",
  "every message", "All messages.",
  [f"{HH}: get_alg_key_ids_inner, get_signature_params_inner, extract_signatures_inner"])
p("C45","Uncovered parts do not matter",
  "Changing the body, or any header that is neither a signature header nor covered, never changes the outcome of verification; a response verification depends on the associated request only through req components.",
  "every pair of messages that agree on covered parts", "For-all-pairs statement.",
  [f"{HH}: build_signature_base, verify_message_signatures"])
p("C46","Header order and line splitting",
  "Verification does not depend on the relative order of header lines with different names; splitting a covered field into several lines at a comma-space, or joining the lines, does not change its signed value when it has no parameters.",
  "every header map", "All permutations and splittings.",
  [f"{HH}: extract_http_field", f"{CO}: build_http_field_component"])
p("C47","Any history of signing keeps every signature valid",
  "After any sequence of successful set_message_signature(s) calls with distinct valid names on a message that carries none or only parseable signatures, every one of the signatures verifies with its key, is found under its name if its key id is unique, all names are listed in order of signing, and what verified before still does.",
  "every sequence of signing calls", "All histories.",
  [f"{HH}: set_message_signature, verify_message_signature"])
p("C48","Re-used signature names",
  "Two signatures with the same name do not silently replace each other: both can be verified after signing.",
  "every pair of signatures with the same name", "Needs reasoning about dictionary overriding for all values.",
  [f"{HH}: set_message_signatures", f"{SB}: try_parse"])
p("C49","Content digest round-trip",
  "verify_content_digest succeeds on the message returned by set_content_digest and returns it unchanged.",
  "every message, every body and both hash types", "Unbounded bodies, any chunking.",
  [f"{HD}: set_content_digest, verify_content_digest"])
p("C50","Content digest soundness",
  "If verify_content_digest succeeds, the first content-digest header line holds exactly one member, named sha-256 or sha-512, whose bytes equal that hash of the body; the returned message has the same headers and body bytes.",
  "every message", "All header values and bodies.",
  [f"{HD}: verify_content_digest, extract_content_digest, is_equal_digest"])
p("C51","Content digest detects body changes",
  "After set_content_digest, replacing the body by one with a different hash makes verify_content_digest fail with InvalidContentDigest.",
  "every pair of bodies", "For-all-pairs statement.",
  [f"{HD}: verify_content_digest"])
p("C52","Setting a digest is local and idempotent",
  "set_content_digest replaces every earlier content-digest value by exactly one, changes no other header and neither method, URI, status nor body bytes; repeating it with the same type changes nothing.",
  "every message and history of calls", "All header maps and histories.",
  [f"{HD}: set_content_digest"])
p("C53","All content-digest header lines are checked",
  "verify_content_digest never accepts a message one of whose content-digest header lines disagrees with the body.",
  "every message with several content-digest lines", "Multi-line headers.",
  [f"{HD}: extract_content_digest"])
p("C54","Signature over content-digest protects the body",
  "If two messages carry the same signature covering content-digest with a single digest line, both pass digest verification, and the key saw the same bytes for both, then the bodies have the same hash.",
  "every pair of messages", "For-all-pairs end-to-end statement across both crates.",
  [f"{HD}: verify_content_digest", f"{HH}: build_signature_base"])
p("C55","Results do not depend on scheduling",
  "Signing and verifying several signatures concurrently gives, for every order in which the futures are polled, the results in the order of the arguments.",
  "every polling schedule", "All interleavings.",
  [f"{HH}: set_message_signatures, verify_message_signatures_inner (join_all)"])
p("C56","Blocking functions equal the async ones",
  "Each *_sync function returns what the async function with the same arguments resolves to and has the same effect on the message.",
  "every message and argument", "All inputs.",
  [f"{HH}: MessageSignatureReqSync, MessageSignatureResSync"])
p("C57","The alg parameter is honoured",
  "A signature whose alg parameter names an algorithm different from the verifying key's algorithm is not accepted.",
  "every message and key", "All combinations of alg and key types.",
  [f"{HH}: verify_message_signatures_inner", f"{SB}: verify_signature_headers"])
p("C58","A missing covered header is not the same as an empty one",
  "Signing or verifying with a covered HTTP field that the message does not have fails, and so does a dictionary key that is not there.",
  "every message and identifier", "All messages lacking the header.",
  [f"{HH}: extract_http_field", f"{CO}: build_http_field_component"])
p("C59","@request-target and @method identify the request",
  "Two requests with different request targets (or different methods) never have the same @request-target (or @method) value.",
  "every pair of requests", "For-all-pairs statement; OPTIONS requests and methods differing in case break it.",
  [f"{HH}: extract_derived_component", f"{CO}: build_derived_component"])
p("C60","One bad signature does not affect the others",
  "Adding a further signature to a message, however malformed, does not make verification of an existing valid signature fail.",
  "every message and every additional signature", "All malformed additions.",
  [f"{SB}: try_parse", f"{HH}: extract_signatures_inner, verify_message_signatures_inner"])
p("C61","Digest comparison takes constant time",
  "The time taken to compare digests does not depend on the position of the first difference.",
  "every pair of digests", "Timing is not observable in unit tests.",
  [f"{HD}: is_equal_digest"])
p("C62","A key verifies what its secret half signs",
  "For every secret key, data and randomness, sign succeeds and the signature is accepted for the same data by the public key and by the secret key used as a verifying key (given correct primitives); the same holds for shared keys.",
  "every key of every supported type, every data, every randomness", "All keys and data; the glue code selects the primitive per key type.",
  ["httpsig/src/crypto/asymmetric.rs: SecretKey::sign, PublicKey::verify, SecretKey::verify", "httpsig/src/crypto/symmetric.rs: sign, verify"])
p("C63","Signing at once or one after the other",
  "set_message_signatures with several jobs succeeds exactly if set_message_signature succeeds for the jobs one after the other, and leaves the same message, when no job covers the signature headers.",
  "every message and job list", "All job lists; relies on added signature headers not changing later bases.",
  [f"{HH}: set_message_signatures, set_message_signature"])
p("C64","Signing refuses what cannot be verified",
  "If set_message_signature succeeds, the signature headers of the message can be parsed again: neither the name nor the params make verification of this or of earlier signatures impossible.",
  "every name and params", "All texts of names and params.",
  [f"{HH}: set_message_signatures", f"{SB}: HttpSignatureHeaders::try_parse"])
p("C65","Cancelled signing leaves the message alone",
  "Dropping the future of set_message_signatures before it has finished leaves the message unchanged; the futures of signing and verification finish with the first poll in which every inner future is polled, and change nothing afterwards.",
  "every message, job list and prefix of every polling schedule", "Cancellation at every possible point.",
  [f"{HH}: set_message_signatures, verify_message_signatures"])
p("C66","Digests do not depend on how the body arrives",
  "set_content_digest and verify_content_digest give the same result however the body is cut into frames, whatever trailers it has and however often it is pending.",
  "every body, chunking and pattern of pending polls", "All interleavings of arrival and polling.",
  [f"{HD}: into_bytes, into_bytes_with_digest, set_content_digest, verify_content_digest"])
p("C67","MACs have 32 bytes",
  "Verification with a shared key accepts only signatures of exactly 32 bytes: every truncated, extended or empty MAC is rejected with InvalidSignature, never with a panic, and the signature that verify_message_signature names for a shared key has 32 bytes.",
  "every key, message and byte sequence", "All MAC lengths and contents.",
  [f"{SY}: verify", f"{HH}: verify_message_signature"])
p("C68","Digests have the length of their algorithm",
  "verify_content_digest succeeds only if the digest has 32 bytes for sha-256 and 64 bytes for sha-512; other lengths give InvalidContentDigest. The header line that set_content_digest writes has 54 or 98 characters.",
  "every message and digest value", "All digest lengths and bodies.",
  [f"{HD}: is_equal_digest, verify_content_digest, set_content_digest"])
p("C69","The default workflow is safe for every key",
  "Key ids of library keys have 44 characters and need no escaping. Params made with try_new, set_key_info, set_alg, set_random_nonce and short times sign messages such that verification with the other key of the pair succeeds, also if the receiver asks for the key id of its own key.",
  "every key pair, message, list of components without quotes and backslashes and list of such calls", "All keys and call sequences; needs that no base64 key id can break the parameter syntax.",
  [f"{SP}: set_key_info, set_random_nonce, set_alg", f"{SY}: key_id", f"{AS}: key_id", f"{HH}: set_message_signature, verify_message_signature"])
p("C70","The clock matters only through expires",
  "The result of verification depends on the current time only through which received signatures have expired: without an expires parameter the clock is never looked at (a creation time in the future does not matter), and what is accepted at some time is accepted at every earlier time.",
  "every message, key and pair of clocks", "All times and expiry values.",
  [f"{SP}: is_expired", f"{SB}: verify_signature_headers", f"{HH}: verify_message_signatures"])
p("C71","Exactly when verification panics",
  "verify_message_signature panics exactly if the signature headers of the message make it panic (well-formed dictionaries with the same labels whose first unreadable member of Signature-Input has a negative time or an identifier item of a bad kind, see C84), or if some candidate signature that is not expired is checked with an ECDSA key and does not have the length of its signatures.",
  "every message, key and key id", "Needs a complete description of all remote panics.",
  [f"{SP}: TryFrom<&ListEntry>", f"{NM}: TryFrom<&BareItem>", f"{AS}: verify", f"{HH}: verify_message_signature"])
p("C72","Labels are only names",
  "Renaming the labels of the signatures consistently in both headers does not change which signatures are accepted: verification returns the renamed label, or the same error.",
  "every message and every renaming that keeps different labels different", "All renamings and dictionaries.",
  [f"{SB}: HttpSignatureHeaders::try_parse", f"{HH}: extract_signatures, verify_message_signatures"])
p("C73","Order of dictionary members",
  "The order and the parameters of the members of Signature do not influence verification at all; the order of Signature-Input can only change which of several valid signatures is named.",
  "every permutation of the members", "All orders of unboundedly many signatures.",
  [f"{SB}: HttpSignatureHeaders::try_parse", f"{HH}: verify_message_signature"])
p("C74","Removing a signature",
  "Taking one signature out of both headers does not change the result if another one was accepted; adding one that can be read does not make a message unacceptable for keys that never panic.",
  "every message and label", "All sets of signatures.",
  [f"{SB}: HttpSignatureHeaders::try_parse", f"{HH}: verify_message_signature"])
p("C75","Exactly which identifiers round-trip",
  "Printing an identifier and parsing the text gives the identifier back exactly if it is valid and none of its texts contains a double quote or a backslash.",
  "every value of the identifier type", "The converse direction (every other identifier is lost or changed) cannot be sampled.",
  [f"{ID}: HttpMessageComponentId::try_from, Display"])
p("C76","Exactly which signature params round-trip",
  "Printing signature params and parsing the text gives the params back exactly if times have at most 15 digits, texts are printable ASCII without double quotes and backslashes, and the identifiers are valid, free of such characters and different.",
  "every value of the params type", "Both directions over all texts.",
  [f"{SP}: Display, TryFrom<&str>, TryFrom<&ListEntry>"])
p("C77","Exactly which signatures arrive as they were made",
  "Signing an unsigned message gives headers that hold exactly the signatures made if and only if all labels are different structured field keys and all params can be written as in C76. Signing a message that carries signatures gives exactly those and the ones made, behind them, under the same condition with the labels in use included. The same holds for any number of signing calls, one after the other, that all succeed.",
  "every message, list of jobs and key that returns bytes", "All label and parameter texts, all numbers of signatures.",
  [f"{SB}: HttpSignatureHeaders", f"{HH}: set_message_signatures, extract_signature_headers_with_name"])
p("C78","Exactly which component lines round-trip",
  "Parsing a printed component line gives the identifier back exactly if the identifier is valid and contains no double quote, backslash or colon; the value is then the printed value without surrounding whitespace.",
  "every component", "Both directions over all identifiers and values.",
  [f"{CO}: TryFrom<&str> for HttpMessageComponent, Display"])
p("C79","Header values are read by the structured field grammar",
  "The library understands a header value as a structured item, list or dictionary exactly if the grammar of RFC 9651 gives the text that meaning (a repeated key keeps its first place and its last value; base64 padding is optional), and the grammar gives no text two meanings.",
  "every text and every value", "A grammar has infinitely many texts; that nothing else is accepted cannot be sampled.",
  [f"{PM}: handle_params_sf, handle_params_key_into", f"{HD}: extract_content_digest", f"{SB}: HttpSignatureHeaders::try_parse"])
p("C80","The texts of a component identifier",
  "A text parses as a component identifier exactly if it is, up to white space around it, the structured item of the identifier (a string with the parameters sf, bs, tr, req, key, name allowed for that component), or its string without the double quotes; no text denotes two identifiers.",
  "every text and identifier", "Both directions over all texts, including escapes and Unicode white space.",
  [f"{ID}: HttpMessageComponentId::try_from", f"{NM}: TryFrom<&BareItem>", f"{PM}: TryFrom<(&str, &BareItem)>"])
p("C81","The texts of the signature headers",
  "Signature params are read from a text exactly if it is a list of one inner list whose items denote different identifiers and whose times are not negative, with the values of the last parameter of each known name. A message holds exactly the signatures whose names are keys of both dictionaries, made of the parameters in Signature-Input and the byte sequence in Signature.",
  "every text, and every pair of header values", "Both directions over all header texts.",
  [f"{SP}: TryFrom<&str>, TryFrom<&ListEntry>", f"{SB}: HttpSignatureHeaders::try_parse"])
p("C82","Values are serialized to their only canonical text",
  "A structured item, list or dictionary is serialized, for component values with the parameters sf and key, to exactly its canonical text (RFC 9651 section 4.1: no needless zeros, signs or spaces, padded base64, true left out). Each non-empty value has exactly one canonical text, and that text denotes the value.",
  "every list of field lines", "All structured values, numbers and strings.",
  [f"{PM}: handle_params_sf, handle_params_key_into", f"{CO}: TryFrom<(&HttpMessageComponentId, &[String])>"])
p("C83","What is sent is canonical",
  "Identifiers, signature params and the Signature, Signature-Input and Content-Digest lines that the library writes are the canonical structured field texts of their meaning, if no text in them contains a double quote or a backslash. Params are written in the order created, expires, nonce, alg, keyid, tag.",
  "every identifier, params value, signature and body", "All params, names and digests.",
  [f"{ID}: Display", f"{SP}: Display", f"{SB}: signature_header_value, signature_input_header_value", f"{HD}: set_content_digest"])
p("C84","Exactly which inputs panic",
  "Parsing an identifier panics exactly on texts whose name starts with an at sign and is none of the ten derived names; parsing signature params panics exactly on one inner list with such an identifier behind readable ones, or with readable identifiers, no duplicate and a negative created or expires. Inspecting a message panics exactly if its two signature headers are dictionaries with the same names, of byte sequences and inner lists, and the first unreadable inner list is of that kind.",
  "every text, message, key, key id and clock", "The set of texts on which nothing may panic is infinite; tests try a few.",
  [f"{NM}: DerivedComponentName::from", f"{SP}: TryFrom<&ListEntry>, TryFrom<&str>", f"{SB}: HttpSignatureHeaders::try_parse", f"{HH}: verify_message_signature, get_alg_key_ids, get_signature_params"])
p("C85","Which error content digests give",
  "Verifying a content digest fails with NoDigestHeader exactly if the message has no Content-Digest line, with an error about the text if the first line is not visible ASCII, with InvalidHeaderValue if it is not a dictionary with the single member sha-256 or sha-512, a byte sequence, with HttpBodyError if the body cannot be read, and with InvalidContentDigest if all this is in order and the digest is another one. Setting a digest fails only with HttpBodyError, exactly if the body cannot be read. A digest name is refused exactly if it is neither sha-256 nor sha-512.",
  "every message, body and hash function", "Each error must come from its own cause for all messages; tests look at one message per error or only at success.",
  [f"{HD}: verify_content_digest, set_content_digest, extract_content_digest, ContentDigestType::from_str"])
p("C86","Which error reading and verifying signatures gives",
  "All functions that read the signatures of a message report the same error: NoSignatureHeaders exactly if one of the two headers is missing, then unprintable bytes, then headers that are no dictionaries, then names or value kinds that do not fit, then the first member of Signature-Input that is not readable. Verification with one key otherwise reports NoSignatureHeaders exactly if no readable signature is left after the selection by key id, and InvalidSignature exactly if each of those is refused. Verification of a list of keys fails as a whole only with an error of the headers.",
  "every message, key, key id and clock", "The order of the checks over all messages with several defects.",
  [f"{SB}: HttpSignatureHeaders::try_parse", f"{HH}: extract_signature_headers_with_name, verify_message_signature, verify_message_signatures, get_alg_key_ids, get_signature_params"])
p("C87","Which error building and signing gives",
  "A covered component that has no value in the message is reported with the error of its cause: a field or derived component with a parameter that does not apply, a derived component of the other message kind, unprintable bytes, a structured field parameter on another text, or a parameter that is not implemented. Building a signature base reports the first such component. Signing reports the first job without base, then the first key that fails, then InvalidHeaderValue exactly if a header line is not visible text. Signing panics exactly if a key does.",
  "every message, request, params, list of jobs and keys", "All combinations of components and parameters, with several defects at once.",
  [f"{HH}: extract_http_field, extract_derived_component, extract_http_message_component, build_signature_base, set_message_signatures", f"{PM}: handle_params_sf, handle_params_key_into", f"{CO}: TryFrom<(&HttpMessageComponentId, &[String])>"])
p("C88","Which error parsing texts gives",
  "An identifier text is refused with ParseSFVError exactly if it is no structured item, then with InvalidComponentName if the item is no string, then with InvalidComponentParam if a parameter has no meaning, then with InvalidComponentId if a parameter is not allowed for the component. A params text reports no list, the wrong shape, the first identifier not read, or a repeated identifier. A component line is read exactly if the text before its first colon is quoted and denotes an identifier, and the value is what follows the colon without white space.",
  "every text", "All texts with any number of defects.",
  [f"{ID}: HttpMessageComponentId::try_from", f"{NM}: TryFrom<&BareItem>", f"{PM}: TryFrom<(&str, &BareItem)>", f"{SP}: TryFrom<&str>", f"{CO}: TryFrom<&str> for HttpMessageComponent"])
p("C89","Which errors and panics keys give",
  "Reading a secret key fails only with ParsePrivateKeyError and panics exactly if the file is a valid key file of the algorithm whose key octets have the wrong length, or plain octets have the wrong length. Reading a public key fails only with ParsePublicKeyError and never panics. A shared key text that is not base64 is refused with Base64DecodeError whatever the algorithm, another one with InvalidAlgorithmName unless the algorithm is HMAC. Asymmetric verification gives ParseSignatureError exactly for octets of the right length that are no signature, and InvalidSignature exactly for a signature that does not fit.",
  "every key text, octets, algorithm and feature choice", "All malformed files and lengths.",
  [f"{AS}: SecretKey::from_bytes, from_der, from_pem, PublicKey::from_bytes, from_pem, verify", f"{SY}: SharedKey::from_base64"])
p("C90","Only a SHA-2 collision makes two bodies pass for one digest",
  "If two bodies are accepted with the same Content-Digest, or with two messages in which the signing key saw the same bytes with the digest covered, the bodies are equal, or computing their two hashes shows two different inputs of the SHA-2 compression function with the same result. The hash used is that of FIPS 180-4: its constants are the root bits of the first primes, each block is processed by the message schedule and rounds described there, and the hash is the state after the padded blocks.",
  "every message, body of less than 2^60 bytes, key and label", "No test finds or excludes a collision; the reduction quantifies over all pairs of bodies.",
  [f"{HD}: set_content_digest, verify_content_digest, derive_digest", f"{HH}: verify_message_signature"])
p("C91","Only a SHA-256 collision makes one MAC fit two messages",
  "If a shared key accepts the same MAC for two byte strings, these are equal, or computing the two MACs shows a collision of the compression function of SHA-256. The MAC is that of RFC 2104 with SHA-256, and no other is accepted. So a signature with a shared key that is moved to another message is accepted only if every covered component has the same value there, and with a covered content digest only if the body is the same, or such a collision is shown.",
  "every shared key, message and signature", "All pairs of messages.",
  [f"{SY}: SharedKey::sign, verify", f"{HH}: verify_message_signature"])
p("C92","Different shared keys accept different MACs",
  "If two shared keys accept the same MAC for the same bytes, the keys are equal, or computing the MACs shows a collision of SHA-256.",
  "every pair of shared keys, bytes and MAC", "All pairs of keys.",
  [f"{SY}: SharedKey::verify, key_id"])
p("C93","Key ids identify keys",
  "Two keys, public or shared, with the same key id have the same encoding, or computing the two key ids shows a collision of the compression function of SHA-256.",
  "every pair of keys", "All pairs of keys.",
  [f"{AS}: PublicKey::key_id", f"{SY}: SharedKey::key_id"])
p("C94","Signature bases sign their own text",
  "For a signature base made from component lines and params, build_raw_signature returns what the key makes of the UTF-8 bytes of the text of the base (one line per component, then the @signature-params line), and build_signature_headers succeeds exactly if the key does; the result has that signature, the params of the base and the given name, or sig without one. The matching key then accepts the result with the same base until it has expired, and afterwards ExpiredSignatureParams is reported.",
  "every list of component lines, params, key, name and time", "All lines, params and keys; a test signs one base.",
  [f"{SB}: HttpSignatureBase::build_raw_signature, build_signature_headers, verify_signature_headers"])
p("C95","A base is only verified with its own params",
  "HttpSignatureBase::verify_signature_headers accepts a signature only if the params in the headers are the params of the base, and these have not expired.",
  "every base, headers, key and time", "All pairs of a base and headers; tests verify with the headers made from the base.",
  [f"{SB}: HttpSignatureBase::verify_signature_headers"])
p("C96","Adding the req parameter",
  "add_req_param adds req behind the parameters of an identifier, or changes nothing if it is there; the name and the other parameters stay, and doing it twice is doing it once. The result is an identifier that can be parsed, printed as before with ;req behind, and, without quotes and backslashes in the identifier, read back from this text. In a response to a request the resulting component has exactly the value, or the error, that the component has in the request.",
  "every identifier, request and response", "All identifiers with all parameter sets, and all messages.",
  [f"{ID}: HttpMessageComponentId::add_req_param", f"{HH}: build_signature_base"])
p("C97","Which component values have a key",
  "A component value made of a key and a text prints as the text, is key=text as field value, and is not told apart from the text alone in a signature base. Components parsed from lines, and components made from values for all identifiers except @signature-params, have no key and one text. @signature-params takes its first value without surrounding white space, cut at the first equals sign; it fails if there is none or if the identifier has a parameter other than req and name.",
  "every component value, identifier and list of values", "All values with equals signs and white space at any place.",
  [f"{CV}: HttpMessageComponentValue::key, as_field_value, as_component_value", f"{CO}: build_derived_component"])
p("C98","Inspection functions agree about a signature",
  "For every signature that extract_signatures returns, the base reports the keyid, alg, nonce and covered components of the params in the headers; get_signature_params returns these params under the same name, and get_alg_key_ids the same key id and the algorithm that the alg text names, if it is supported.",
  "every message, associated request and feature choice", "All messages with any number of signatures.",
  [f"{SB}: HttpSignatureBase::keyid, alg, nonce, covered_components", f"{HH}: extract_signatures, get_signature_params, get_alg_key_ids"])
p("C99","Body bytes with digest",
  "into_bytes_with_digest returns the data of the body in order without trailers, and the base64 of its hash, exactly if the body can be read. The Content-Digest line that set_content_digest writes is the printed algorithm name with this text between =: and :. The printed names are sha-256 and sha-512, and these are the only texts parsed as algorithm names.",
  "every body, hash function and algorithm", "All bodies in all chunkings.",
  [f"{HD}: ContentDigest::into_bytes_with_digest", "httpsig-hyper/src/lib.rs: ContentDigestType"])
p("C100","A signature is only accepted with the parameters it was made with",
  "If verification accepts a message, then the parameters that get_signature_params reports for the accepted signature are those that were given to the signing function. In particular nobody without the key can change the nonce of a signature, so that remembering nonces protects against replayed messages.",
  "every signed message, key, clock and every change of its Signature-Input header", "The changes are found by knowing which texts the printing code confuses, for all values of all parameters.",
  [f"{SP}: Display for HttpSignatureParams, TryFrom<&ListEntry>", f"{HH}: verify_message_signatures, get_signature_params"])
p("C101","Exactly which signature params share their text",
  "Signature params have the same printed text as other ones with the same covered components and times exactly if two of nonce, alg, keyid and tag are given, or the only one given contains a double quote, semicolon, the name of a later one of these four, an equals sign and a double quote in a row. Params with key information (set_key_info) always have such a twin.",
  "every signature params value", "A statement about all pairs of values of four free texts.",
  [f"{SP}: Display for HttpSignatureParams, set_key_info"])
p("C102","Signatures are verified over the parameters as received",
  "Verification builds the text with the member of Signature-Input as it was received, as RFC 9421 section 3.2 demands: all parameters, known or not, in their order. So a signature that another implementation made according to the RFC is accepted, and any change of the parameters is noticed.",
  "every message, Signature-Input member, key and clock", "A statement about all orders and all sets of parameters.",
  [f"{SP}: TryFrom<&ListEntry> for HttpSignatureParams, Display", f"{HH}: verify_message_signatures, extract_signatures"])
p("C103","Signatures survive transmission in origin form",
  "A request that a client makes with an absolute URI and signs is accepted by a server that receives it over HTTP/1.1, where the request line has only path and query and the authority is in the Host field; and the server's signature of the response over components of the request is accepted by the client.",
  "every request, covered components, key, clock and response", "The tests verify the very object that was signed.",
  [f"{HH}: extract_derived_component", f"{HH}: build_signature_base"])
p("C104","Field values follow RFC 9421 section 2.1",
  "The value of a field component without parameters is that of RFC 9421 section 2.1: each field line without the white space around it, joined by a comma and a space; a field that is not in the message is an error.",
  "every list of field lines", "A statement about all texts with and without white space.",
  [f"{CO}: build_http_field_component", f"{HH}: extract_http_field"])
p("C105","Structured field components are taken from the field as a whole",
  "With sf or key the field lines together are read as one structured field, as RFC 9421 sections 2.1.1 and 2.1.2 demand: sf gives the canonical text of the whole list or dictionary, where the last of several members with the same key counts, and key gives the canonical text of that one member and fails if there is none.",
  "every list of field lines and key", "A statement about all divisions of a structured field into lines.",
  [f"{CO}: build_http_field_component", f"{PM}: handle_params_sf, handle_params_key_into"])
p("C106","@query-param follows RFC 9421 section 2.2.8",
  "The value of @query-param;name=n is that of RFC 9421 section 2.2.8: the query is read as a form (plus is a space, percent escapes are bytes), the only parameter whose encoded name is n is taken and its value is encoded again; no or several parameters with this name are an error.",
  "every query and name", "A statement about all texts that denote the same parameters.",
  [f"{CO}: build_derived_component (QueryParam)", f"{HH}: extract_derived_component (QueryParam)"])
p("C107","Derived components follow RFC 9421 section 2.2 for absolute URIs",
  "For every request with an absolute URI the derived components are those of RFC 9421 section 2.2: the method as it is, the target URI, the lower-case authority without the default port of the scheme, the lower-case scheme, the request target that is sent, the path and the query.",
  "every method, scheme, authority, path and query", "A statement about all URIs and methods.",
  [f"{CO}: build_derived_component", f"{HH}: extract_derived_component"])
p("C108","Signatures can cover other signatures of the message",
  "A message that has signatures can be signed again with the Signature or Signature-Input field among the covered components, whole or one member of it (RFC 9421 section 4.3), and the new signature is accepted in the message that it was added to. Adding further signatures under other names leaves these signatures valid.",
  "every signed message, covered components, key, clock and number of signatures", "The tests never cover the signature headers; the statement is about all messages and all names.",
  [f"{HH}: set_message_signatures, verify_message_signatures, extract_http_field", f"{PM}: handle_params_key_into"])
p("C109","@signature-params cannot be covered",
  "Signing refuses covered components with @signature-params, which RFC 9421 section 2.3 forbids there, and no signature that covers it is accepted.",
  "every message, covered components and key", "A statement about all messages with all sets of signatures.",
  [f"{HH}: extract_derived_component (SignatureParams)", f"{CO}: build_derived_component"])
p("C110","Which private key files are read",
  "SecretKey::from_der reads exactly the PKCS#8 documents (in DER, shorter than 2^28 bytes) whose algorithm identifier is that of the given algorithm and whose key octets hold a secret key, and the key is the one of those octets; SecretKey::from_pem reads such documents with the label PRIVATE KEY. A document has one algorithm (up to the two uses of RSA) and one secret key. Reading panics exactly for documents of the right algorithm whose key octets have not the length of a secret key.",
  "every byte string and algorithm, every behaviour of the cryptographic primitives", "A statement about all byte strings; the tests read one file for each algorithm.",
  [f"{AS}: SecretKey::from_der, SecretKey::from_pem"])
p("C111","Ed25519 private key files are those of RFC 8410",
  "SecretKey::from_der with Ed25519 reads only documents of RFC 8410 section 7: the algorithm identifier has no parameters and the key octets are a DER octet string with the 32 bytes of the seed. Every such document is read and gives its seed.",
  "every byte string", "A statement about all byte strings.",
  [f"{AS}: SecretKey::from_der (Ed25519)"])
p("C112","EC private key files are consistent",
  "SecretKey::from_der reads an EC private key only if the curve named inside the EC structure (RFC 5915) is that of the algorithm identifier and the public key inside it is the one of the secret key. Every document of RFC 5915 with a valid scalar is read and gives its scalar.",
  "every byte string, both curves", "A statement about all byte strings.",
  [f"{AS}: SecretKey::from_der (EC)"])
p("C113","Which public key files are read",
  "PublicKey::from_pem reads exactly the texts with the label PUBLIC KEY that hold a SubjectPublicKeyInfo in DER whose algorithm identifier is that of the given algorithm and whose bit string of whole octets is a public key, and the key is the one of those octets. A document has one algorithm (up to the two uses of RSA) and one public key; EC keys have one document for each encoding of the point.",
  "every byte string and algorithm, every behaviour of the cryptographic primitives", "A statement about all byte strings.",
  [f"{AS}: PublicKey::from_pem"])
p("C114","Which RSA public keys are read, and their key ids",
  "PublicKey::from_pem with an RSA algorithm reads exactly the SubjectPublicKeyInfo documents whose key octets are an RSAPublicKey of PKCS#1 in DER (modulus and exponent, both written as numbers without sign in the shortest form, nothing behind them) with numbers that the RSA implementation accepts. Modulus and exponent determine the key octets and are determined by them. The key id is the base64 text of the SHA-256 hash of these octets.",
  "every byte string, every choice of the numbers that are accepted", "A statement about all byte strings and all numbers; the tests read one key.",
  [f"{AS}: PublicKey::from_pem, PublicKey::from_bytes (RSA), PublicKey::key_id"])
p("C115","RSA private keys and their public halves",
  "SecretKey::from_der with an RSA algorithm reads exactly the PKCS#8 documents whose key octets are an RSAPrivateKey of two primes (version 0, eight numbers in the shortest form, nothing behind them) with numbers that the RSA implementation accepts; it never panics. The public half of such a key is the public key that is read from a public file with the same modulus and exponent, and of no other. If a private and a public file have keys with the same key id then they belong together, or computing the key ids shows a collision of SHA-256.",
  "every private and public file, every choice of the numbers that are accepted", "A statement about all pairs of files.",
  [f"{AS}: SecretKey::from_der, SecretKey::from_bytes (RSA), SecretKey::public_key, PublicKey::key_id"])
here = os.path.dirname(os.path.abspath(__file__))
with open(os.path.join(here, "..", "properties.jsonl"), "w") as f:
    for o in P: f.write(json.dumps(o) + "\n")
print(len(P))
