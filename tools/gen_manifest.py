#!/usr/bin/env python3
"""Writes MANIFEST.json. The theorems of a property are the `Theorem Cxx_...` of rocq/theories/Props_*.v."""
import glob, json, os, re
here = os.path.dirname(os.path.abspath(__file__))
root = os.path.join(here, "..")
thms = {}
for f in sorted(glob.glob(os.path.join(root, "rocq/theories/Props_*.v"))):
    for m in re.finditer(r"^Theorem ((C\d\d\d?)_\w+)", open(f).read(), re.M):
        thms.setdefault(m.group(2), []).append(m.group(1))
# property -> (status if not proved, note)
NOTES = {
  "C01": ("partial", "False in general (C01_refuted, C01_refuted_ambiguous): double quotes and backslashes are not escaped when printing. Proved for all identifiers without these two characters; no other one round-trips (C75)."),
  "C06": ("partial", "False for identifiers with a colon (C06_refuted) and for those with quotes or backslashes (C01). Proved for all others; the condition is exact (C78)."),
  "C12": ("partial", "False in general (C12_refuted): texts are not escaped, and times of more than 15 digits do not parse. Proved for printable texts without double quote and backslash and times of at most 15 digits; no other params round-trip (C76)."),
  "C13": ("partial", "False in general (C13_refuted): escaped double quotes. Proved for parameters without double quotes; for signature bases, the identifiers, values and times are determined in any case (C13_base_partial)."),
  "C15": ("partial", "False (C15_refuted): a negative created or expires and an unknown derived component name make every verification and inspection panic. Proved: no other header content does (C15_safe_partial), and exactly which members do (C15_exactly_partial)."),
  "C57": ("partial", "False (C57_refuted): the alg parameter is never compared with the key. Proved: the parameter is part of the signed text (C57_bound_partial)."),
  "C48": ("partial", "False (C48_refuted): the later signature hides the earlier one. Proved: the last signature of every name is the one found, in the place of the first (C48_last_wins_partial)."),
  "C60": ("partial", "False (C60_refuted): an unparsable or harmful further signature, or a short one for an ECDSA key, makes verification fail or panic. Proved for parseable signatures with new names behind the others, and keys that do not panic (C60_added_partial)."),
  "C64": ("partial", "False (C64_refuted): names that are not keys and texts with double quotes are written as they are, and then no signature of the message can be verified. Proved for names that are keys and params that can be written (C64_parseable_partial); these are exactly the ones received as made (C77)."),
  "C31": ("partial", "False (C31_refuted): ECDSA keys panic on other lengths. C31_panics_exactly says for which inputs; all other key types never panic."),
  "C58": ("partial", "False (C58_refuted, C58_refuted_key): a missing field or dictionary key reads as the empty value. Proved, and exact: without parameters only a missing field and a single empty line have the empty value, with sf only a missing field, with key only dictionaries without that key."),
  "C59": ("partial", "False for OPTIONS (always an asterisk) and for methods that differ in case only (C59_refuted_target, C59_refuted_method). Proved for upper-case methods, and for the request targets of other methods."),
  "C53": ("partial", "False (C53_refuted): only the first line is read; the lines of a signed message can be joined so that another digest counts (C53_signed_refuted). Proved for messages with a single line (C53_single_line_partial)."),
  "C92": ("partial", "False (C92_refuted): HMAC fills keys up with zero bytes, so a key and the same key with zero bytes behind it accept the same MACs, with different key ids. Proved: keys with the same MAC differ only in that, after the hashing of keys of more than 64 bytes, or show a collision (C92_same_mac_partial); for keys of the same length the claim holds (C92_same_length_partial)."),
  "C95": ("partial", "False (C95_refuted): the expiry is read from the headers, the text from the base, and the two params are never compared; an expired base is accepted with headers without expires. Proved: exactly what is accepted (C95_exactly_partial), and that bases and headers extracted from one message belong together (C95_message_partial)."),
  "C100": ("partial", "False (C100_refuted): the nonce of a signature can be replaced without the key. C100_forged and C100_every say for which messages this works: all whose params share their text with other ones (C101), in particular every signature with nonce and alg (C100_nonce). Proved: verification depends on the params through the covered components, the text, expires and the requested key id only (C100_view); params without double quotes on both sides are the signed ones (C100_unquoted_partial)."),
  "C102": ("partial", "False (C102_refuted): the text is printed again from the known parameters in a fixed order, so a signature over the parameters of RFC 9421 B.2.1 (key id before nonce) is rejected, and added or reordered parameters are not noticed (C102_unnoticed). Proved: exactly which members give the text of the RFC (C102_exactly_partial)."),
  "C103": ("partial", "False (C103_refuted): @authority, @scheme and @target-uri are taken from the URI only, never from the Host field, so a signature over @authority is rejected by the server. Proved: signatures that do not cover these three components nor the host field are verified with the same result (C103_request_partial, C103_response_partial), and no other derived component changes (C103_exactly_partial)."),
  "C104": ("partial", "False (C104_refuted): white space in header values is signed as it is, and a missing field is taken for an empty one. Proved: the value is that of the RFC for exactly the fields that are there and have no white space around their lines (C104_exactly_partial), which holds for fields that came over the network."),
  "C105": ("partial", "False (C105_refuted): every line is read for itself, so a key in two lines is signed twice, and a missing member is taken for an empty text. Proved: agreement with the RFC for lines that are lists (C105_list_partial), for dictionaries if and only if no key is signed twice (C105_dict_exactly_partial, where C105_members_partial says which members are signed), and with key if and only if exactly one line has the member (C105_member_exactly_partial)."),
  "C106": ("partial", "False (C106_refuted, with a query of the RFC): names and values are taken as they are written, several values are joined, and a missing parameter has the empty value. Proved: for a parameter that is there once, the value is that of the RFC if and only if it is empty or name and value are written in the encoding of the RFC (C106_exactly_partial)."),
  "C107": ("partial", "False (C107_refuted): the default port is kept, the method is put in upper case, and @request-target of OPTIONS is always an asterisk. Proved: these are the only differences (C107_exactly_partial)."),
  "C108": ("partial", "False (C108_refuted): a signature over the whole Signature field is made, but the new line changes the field, so it is rejected at once. Proved: with any parameters, exactly members with other names, taken before anything else but sf, keep their value (C108_exactly_partial); signatures that cover such members are accepted after they were added (C108_verifies_partial, C108_name_partial) and stay valid when others are added (C108_old_partial)."),
  "C109": ("partial", "False (C109_refuted): for a message with Signature-Input, @signature-params is accepted as a covered component; its value is taken from the first line of the field, whoever made that signature, so joining lines makes the new signature invalid. Proved: what the value is (C109_value_partial), and that a message without Signature-Input is left unsigned (C109_fresh_partial)."),
  "C110": ("proved", "The DER decoding of crates der, pkcs8 and sec1 is modelled from their documentation; decoding of PEM texts stays a parameter."),
  "C111": ("partial", "False (C111_refuted): the two bytes before the seed are skipped without a look, and parameters are ignored. Proved: documents of RFC 8410 are read with their seed (C111_standard_partial), exactly what else is read (C111_exactly_partial), and that every other length of the key octets panics (C111_panics_partial)."),
  "C112": ("partial", "False (C112_refuted): a P-256 file may name P-384 inside and carry any public key. Proved: documents of RFC 5915 give their scalar (C112_standard_partial), and only the algorithm identifier and the scalar count (C112_ignored_partial)."),
  "C113": ("proved", "Decoding of PEM texts is a parameter that gives bytes."),
  "C114": ("proved", "PKCS#1 (crate pkcs1) is modelled from its documentation; which numbers are accepted and the arithmetic of RSA are parameters."),
  "C115": ("proved", "As for C114. The private key in the model is the list of its eight numbers."),
  "C61": ("not_applicable", "Timing is outside a functional model."),
}
claims = []
for l in open(os.path.join(root, "properties.jsonl")):
    i = json.loads(l)["id"]
    st, note = NOTES.get(i, ("proved", ""))
    if isinstance(st, tuple): st, note = st
    t = thms.get(i, [])
    if not t and st != "not_applicable": continue
    claims.append({"property": i, "status": st, "theorems": t, "note": note})
json.dump({"claims": claims}, open(os.path.join(root, "MANIFEST.json"), "w"), indent=1)
print(len(claims), "claims,", sum(len(c["theorems"]) for c in claims), "theorems")
