#!/usr/bin/env python3
"""Writes rocq/theories/RustText.v: the text of the source files of /repo up to their test modules,
without the lines that hold nothing but a comment.

usage: gen_text.py [--check]   (--check: compare instead of writing)"""
import os, sys
ROOT = os.path.abspath(os.path.join(os.path.dirname(__file__), ".."))
OUT = f"{ROOT}/rocq/theories/RustText.v"
FILES = ["constants", "error", "card/rank", "card/suit", "card/mod", "deck", "evaluate/hand_rank", "evaluate/class",
         "evaluate/meta", "evaluate/eval", "evaluate/utils", "evaluate/lookup_table",
         "evaluate/evaluation", "evaluate/mod"]

def text(path):
    lines = []
    for l in open(path, encoding="utf-8"):
        if l.strip() == "#[cfg(test)]": break
        if l.strip().startswith("//") or not l.strip(): continue
        lines.append(l.rstrip("\n"))
    return "\n".join(lines) + "\n"

def render():
    out = ["(** RustText.v: written by tools/gen_text.py, which can also compare it with /repo.  The text of",
           "    source files up to their test modules, without blank lines and lines that hold nothing but a",
           "    comment. *)",
           "From Coq Require Import String.",
           "Local Open Scope string_scope.", ""]
    for f in FILES:
        p = f"/repo/src/{f}.rs"
        t = text(p)
        n = sum(1 for _ in open(p))
        out.append(f"(** src/{f}.rs:1-{n} *)")
        out.append(f"Definition src_{f.replace('/', '_')} : string :=")
        out.append('"' + t.replace('"', '""') + '".')
        out.append("")
    return "\n".join(out)

if __name__ == "__main__":
    r = render()
    if "--check" in sys.argv:
        same = open(OUT, encoding="utf-8").read() == r
        print("same" if same else "DIFFERENT")
        sys.exit(0 if same else 1)
    open(OUT, "w", encoding="utf-8").write(r)
