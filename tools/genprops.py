#!/usr/bin/env python3
"""Print a property theorem that restates a lemma: genprops.stmt(file, lemma) -> (binders+statement, args)."""
import re
def stmt(path, lemma):
    s = open(path).read()
    m = re.search(r'(?:Theorem|Lemma) ' + re.escape(lemma) + r"(?![\w'])\s*(.*?)\.\s*\nProof", s, re.S)
    body = m.group(1)
    args, depth, i = [], 0, 0
    # binders come before the first ':' at depth 0
    while True:
        c = body[i]
        if c in '({': depth += 1
        elif c in ')}': depth -= 1
        elif c == ':' and depth == 0: break
        i += 1
    binders = body[:i]
    for part in re.findall(r'\([^()]*(?:\([^()]*\)[^()]*)*\)|\{[^{}]*\}|[\w\']+', binders):
        if part[0] == '{': continue
        if part[0] == '(': args += part[1:-1].split(':')[0].split()
        else: args.append(part)
    return body, args
def prop(path, lemma, name, comment):
    body, args = stmt(path, lemma)
    ex = lemma if not args else '(' + ' '.join([lemma] + args) + ')'
    return f"(** {comment} *)\nTheorem {name} {body}.\nProof. exact {ex}. Qed.\nPrint Assumptions {name}.\n"
