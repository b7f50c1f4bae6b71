#!/usr/bin/env python3
"""Writes seeded/LOG.jsonl from the verdicts seed_test.py left in /tmp/seed, plus the notes below."""
import json, os
ROOT = os.path.abspath(os.path.join(os.path.dirname(__file__), ".."))
TIGHTENED = {
    "M039": ["C15_message (new)", "C34_repl"],
    "M098": ["C34_repl"],
    "M112": ["C14_text", "C24_lists_duplicates"], "M123": ["C18_idents"],
    "M125": ["C45_bounds_asked (new)"], "M126": ["C45_bounds_asked (new)"],
    "M141": ["C34_repl", "C60"], "M142": ["C24_lists_duplicates"], "M165": ["C27_best_of_threads"],
    "M183": ["C53_card_text"], "M185": ["C53_card_text"], "M187": ["C53_card_text"], "M189": ["C53_class_text"],
    "M203": ["C54"], "M267": ["C11_predicates"], "M284": ["C38_equality (new)"], "M285": ["C38_equality (new)"],
    "M332": ["C54"], "M735": ["C72_whatever_collection"], "M516": ["C65_both_prompts"], "M517": ["C65_both_prompts"],
    "M686": ["C65_both_prompts"], "M796": ["C75_digits (new)"],
    "M661": ["C79 operators (new)"], "M662": ["C79 operators (new)"], "M663": ["C79 operators (new)"],
    "M920": ["C70_tools (new)"], "M921": ["C70_tools (new)"], "M947": ["C70_tools"],
    "M942": ["C74_methods (new)"],
}
SURVIVED = "The first version of the property survived; the theorems listed as tightened now fail."
NOTES = {
    "M001": "C13 and C35 fail. C02 and C29 still hold of the wrong program: a product with 39 = 3 * 13 in place of 41 coincides with another only for hands of six cards.",
    "M031": "C02 fails. C30 still holds of the wrong program: it ties the text to class(), and they are exchanged together.",
    "M039": "The first version of C15 and C34 survived: nothing fixed the text. Now both fail.",
    "M045": "Control: no change of behaviour, nothing fails.",
    "M050": "Equivalent: the last pattern 1111100000000 is a straight and is filtered out anyway (checked by computation). See M099 for two patterns too few.",
    "M098": "The first version of C34 survived: it left the style open. Now it fails.",
}
for x in TIGHTENED: NOTES.setdefault(x, SURVIVED)
if __name__ == "__main__":
    out = open(f"{ROOT}/seeded/LOG.jsonl", "w")
    for m in json.load(open(f"{ROOT}/seeded/mutants.json")):
        f = f"/tmp/seed/{m['id']}.json"
        if not os.path.exists(f): print("missing", m["id"]); continue
        r = json.load(open(f))
        if r.get("error"): print("error", m["id"], r["error"][:200])
        if r["survivors"] and NOTES.get(m["id"], SURVIVED) == SURVIVED: print("survivors", m["id"], m["edit"], r["survivors"], len(r["theorems_failed"]))
        line = {"id": m["id"], "definition": m["definition"], "file": m["file"], "edit": m["edit"],
                "claim_broken": m["claim"], "expected_to_fail": m["expected"],
                "theorems_failed": r["theorems_failed"], "theorems_tightened": TIGHTENED.get(m["id"], [])}
        if m["id"] in NOTES: line["note"] = NOTES[m["id"]]
        elif not m["expected"] and not r["theorems_failed"]: line["note"] = "Control: " + m["claim"].removeprefix("control: ")
        out.write(json.dumps(line, ensure_ascii=False) + "\n")
