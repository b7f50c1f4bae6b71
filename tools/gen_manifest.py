#!/usr/bin/env python3
"""Writes MANIFEST.json from the theorem names in rocq/theories/Properties*.v."""
import collections, glob, json, os, re
root = os.path.join(os.path.dirname(__file__), "..")
NOTES = {
    "C22": "The clause 'Equal iff ==' is false of the code: Ord compares ranks only, Eq compares cards. Refuted with As/Ah; every other clause is proved.",
    "C23": "False as stated: the message reports bytes. Refuted with the one-character string U+00E9, whose message says 'length 2, expected 2'; proved for ASCII input.",
    "C25": "False for default(): #[derive(Default)] leaves the tables empty and every five-card evaluation panics. Proved for new() and clones.",
    "C33": "The README table disagrees with the code for straight flush and royal flush. Refuted with witnesses; what the code does pay is proved.",
    "C41": "The clause 'a discarded card is out of play' is false of the code: discards go back into the deck before the redeal, so even the same hand can be dealt back. Every other clause is proved.",
    "C31": "An overflow panic (debug builds) is possible after 2^52 lines of input, and only for this reason.",
    "C47": "The DoubleEndedIterator and ExactSizeIterator impls exist, but parse_to_iter returns ParseToIter<impl Iterator>, so callers outside the crate cannot use them on its result (finding in DESIGN.md).",
    "C45": "The claim is about the numbers rand answers; C59 goes down to the words it draws. The generator of the words is not modelled (see DESIGN.md).",
    "C59": "rand is a dependency, not part of /repo: ModelRand.v is written from memory of the published version 0.8.5 and was not compared with its source, which is not available in the sandbox. ChaCha12, which makes the words, is not modelled.",
    "C53": "Debug of ParseCardError is C63, of Evaluator C68; no caller can print a ParseToIter (see DESIGN.md).",
    "C63": "The standard library's escaping is written from memory; its Unicode tables are an arbitrary predicate.",
    "C64": "Tokens are simplified: an expression is one token (see ModelMacros.v).",
    "C65": "The escape sequences of the colored crate are written from memory of version 2. The second half, about input with escape characters, is C65_any_input_refuted.",
    "C66": "Equally likely answers of rand are an assumption here (see C45, C59).",
    "C68": "The standard library's builders for {:?} and {:#?} are written from memory.",
    "C69": "Equally likely answers of rand are an assumption here (see C45, C59).",
    "C75": "core::fmt is written from memory of the standard library. A quoted text within {:?} is handed over in one piece here, in several by the standard library.",
    "C83": "The code of the standard library's and rustc-hash's maps is not in /repo: ModelHash.v is written from memory, one slot searched at a time.",
    "C84": "phf 0.11 is written from memory; SipHash is an arbitrary function. Where phf divides by zero the model finds nothing, which panics as well.",
    "C87": "About the text of src/ as read by RustSyntax.v and run by RustSemantics.v, a parser and an interpreter written for this text (see DESIGN.md).",
    "C88": "About the text of src/ as read by RustSyntax.v and run by RustSemantics.v, a parser and an interpreter written for this text (see DESIGN.md).",
    "C89": "About the text of src/ as read by RustSyntax.v and run by RustSemantics.v, a parser and an interpreter written for this text (see DESIGN.md).",
    "C90": "About the text of src/ as read by RustSyntax.v and run by RustSemantics.v, a parser and an interpreter written for this text (see DESIGN.md).",
    "C91": "About the text of src/ as read by RustSyntax.v and run by RustSemantics.v, a parser and an interpreter written for this text (see DESIGN.md).",
    "C92": "About the text of src/ as read by RustSyntax.v and run by RustSemantics.v, a parser and an interpreter written for this text (see DESIGN.md).",
    "C93": "About the text of src/ as read by RustSyntax.v and run by RustSemantics.v, a parser and an interpreter written for this text (see DESIGN.md).",
    "C94": "About the text of src/ as read by RustSyntax.v and run by RustSemantics.v, a parser and an interpreter written for this text (see DESIGN.md). A hasher is the list of integers fed to it; which impls are derived is part of the interpreter.",
    "C95": "About the text of src/ as read by RustSyntax.v and run by RustSemantics.v, a parser and an interpreter written for this text (see DESIGN.md). The shuffle of the rand crate is written from memory.",
    "C96": "About the text of src/ as read by RustSyntax.v and run by RustSemantics.v, a parser and an interpreter written for this text (see DESIGN.md).",
    "C97": "About the text of src/ as read by RustSyntax.v and run by RustSemantics.v, a parser and an interpreter written for this text (see DESIGN.md).",
    "C98": "About the text of src/ as read by RustSyntax.v and run by RustSemantics.v, a parser and an interpreter written for this text (see DESIGN.md).",
    "C99": "About the text of src/ as read by RustSyntax.v and run by RustSemantics.v, a parser and an interpreter written for this text (see DESIGN.md).",
    "C100": "About the text of src/ as read by RustSyntax.v and run by RustSemantics.v, a parser and an interpreter written for this text (see DESIGN.md).",
    "C101": "About the text of src/ as read by RustSyntax.v and run by RustSemantics.v, a parser and an interpreter written for this text (see DESIGN.md).",
    "C102": "About the text of src/ as read by RustSyntax.v and run by RustSemantics.v, a parser and an interpreter written for this text (see DESIGN.md).",
    "C103": "About the text of src/ as read by RustSyntax.v and run by RustSemantics.v, a parser and an interpreter written for this text (see DESIGN.md).",
    "C54": "The URL's content is not part of the checkout; the claim is about any content.",
    "C26": "The generated files themselves are not part of the checkout. Holds when the embedded tables equal the built ones. The build-time test alone does not fix the class (C26_test_does_not_fix_the_class); what it does fix is C26_tables_passing_the_test.",
}
PARTIAL = {"C22", "C23", "C25", "C33", "C41"}
ths = collections.defaultdict(list)
for f in sorted(glob.glob(os.path.join(root, "rocq/theories/Properties*.v"))):
    for m in re.finditer(r"^Theorem ((C\d+)_\w+)", open(f).read(), re.M):
        ths[m.group(2)].append(m.group(1))
claims = []
for line in open(os.path.join(root, "properties.jsonl")):
    p = json.loads(line)
    i = p["id"]
    if not ths[i]:
        claims.append({"property": i, "status": "partial", "theorems": [], "note": "No theorem yet."})
        continue
    st = "partial" if i in PARTIAL else "proved"
    claims.append({"property": i, "status": st, "theorems": ths[i], "note": NOTES.get(i, "")})
json.dump({"claims": claims}, open(os.path.join(root, "MANIFEST.json"), "w"), indent=1)
