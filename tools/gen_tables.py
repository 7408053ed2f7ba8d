#!/usr/bin/env python3
"""Generate the Coq table modules from the C sources in /repo (read as text).

Integer tables become lists of Z.  Floating-point tables are written as integers in
units of 10^-6 (every literal in the sources has at most six decimals); the Coq side
divides in binary64 and rounds to binary32, which is what the compiler does with an
unsuffixed literal stored into a float array.
"""
import re, sys
from decimal import Decimal

REPO = "/repo"
OUT = "/verif/rocq/theories"

def load(path):
    raw = open(f"{REPO}/{path}", encoding="utf-8").read()
    # blank out comments but keep newlines so that line numbers stay valid
    def blank(m): return re.sub(r"[^\n]", " ", m.group(0))
    return re.sub(r"/\*.*?\*/|//[^\n]*", blank, raw, flags=re.S)

def find(text, name):
    m = re.search(r"\b%s((?:\s*\[\d+\])+)\s*=\s*\{" % re.escape(name), text)
    dims = [int(x) for x in re.findall(r"\[(\d+)\]", m.group(1))]
    start = m.end() - 1
    depth, i = 0, start
    while True:
        if text[i] == "{": depth += 1
        if text[i] == "}":
            depth -= 1
            if depth == 0: break
        i += 1
    l1 = text.count("\n", 0, m.start()) + 1
    l2 = text.count("\n", 0, i) + 1
    return dims, text[start:i + 1], l1, l2

def parse(body):
    toks = re.findall(r"[{}]|[-+]?(?:0x[0-9a-fA-F]+|\d*\.\d+|\d+\.?)(?:[eE][-+]?\d+)?[fF]?", body)
    pos = 0
    def node():
        nonlocal pos
        assert toks[pos] == "{"; pos += 1
        out = []
        while toks[pos] != "}":
            if toks[pos] == "{": out.append(node())
            else: out.append(toks[pos]); pos += 1
        pos += 1
        return out
    return node()

def shape(tree, dims, zero):
    """C initialiser semantics for fully braced or fully flat initialisers."""
    if any(isinstance(x, list) for x in tree):
        assert all(isinstance(x, list) for x in tree)
        rows = [shape(x, dims[1:], zero) for x in tree]
        while len(rows) < dims[0]: rows.append(shape([], dims[1:], zero))
        assert len(rows) == dims[0]
        return rows
    n = 1
    for d in dims: n *= d
    assert len(tree) <= n, (len(tree), dims)
    flat = list(tree) + [zero] * (n - len(tree))
    def build(off, ds):
        if len(ds) == 1: return flat[off:off + ds[0]]
        sz = 1
        for d in ds[1:]: sz *= d
        return [build(off + k * sz, ds[1:]) for k in range(ds[0])]
    return build(0, dims)

def num(tok, scale, want_f=None):
    t = tok
    if t.lower().startswith("0x"): return int(t, 16) * scale
    suffix = t[-1] in "fF"
    if suffix: t = t[:-1]
    v = Decimal(t) * scale
    assert v == int(v), tok
    if want_f is not None and "." in t: assert suffix == want_f, tok
    return int(v)

def show(x):
    if isinstance(x, list): return "[" + "; ".join(show(y) for y in x) + "]"
    return str(x) if x >= 0 else "(%d)" % x

def wrap(s, width=110):
    out, line = [], ""
    for w in s.split(" "):
        if len(line) + len(w) + 1 > width:
            out.append(line); line = w
        else: line = (line + " " + w) if line else w
    out.append(line)
    return "\n  ".join(out)

def emit(mod, path, tables):
    t = load(path)
    o = ["(* Generated by tools/gen_tables.py from /repo/%s.  Do not edit. *)" % path,
         "From Coq Require Import ZArith List.", "From Verif Require Import F32.",
         "Import ListNotations.", "Local Open Scope Z_scope.", ""]
    for name, kind, coq in tables:
        dims, body, l1, l2 = find(t, name)
        tree = parse(body)
        def conv(x): return [conv(y) for y in x] if isinstance(x, list) else num(x, 1 if kind == "Z" else 1000000, {"d": False, "f": True}.get(kind))
        val = conv(shape(tree, dims, "0"))
        o.append("(* /repo/%s:%d-%d, %s%s *)" % (path, l1, l2, name, "".join("[%d]" % d for d in dims)))
        if kind == "Z":
            o.append("Definition %s : %s := \n  %s.\n" % (coq, "list " * 0 + ("list (" * len(dims)) + "Z" + ")" * len(dims), wrap(show(val))))
        else:
            o.append("Definition %s_micro : %s := \n  %s." % (coq, ("list (" * len(dims)) + "Z" + ")" * len(dims), wrap(show(val))))
            f = "micro_d" if kind == "d" else "micro_f"
            for _ in dims: f = "(map %s)" % f
            o.append("Definition %s : %s := Eval vm_compute in %s %s_micro.\n" % (coq, ("list (" * len(dims)) + "f32" + ")" * len(dims), f, coq))
    open("%s/%s.v" % (OUT, mod), "w").write("\n".join(o))

emit("TabEcc", "src/ecc/ecc_const.c", [(n, "Z", n) for n in
     ["hammingGenerator", "imbe7100x4400hammingGenerator", "golayGenerator", "golayMatrix"]])
emit("TabEccLut", "src/ecc/ecc.c", [(n, "Z", n) for n in ["ham1511_lut", "ham1511_7100_lut"]])
emit("TabImbe", "src/internal/imbe7200x4400_const.h",
     [("quantstep", "d", "quantstep"), ("standdev", "d", "standdev"), ("B2", "d", "B2"), ("ba", "d", "ba"),
      ("hoba", "Z", "hoba"), ("bo", "Z", "bo"), ("ImbeJi", "Z", "ImbeJi")])
emit("TabAmbe2450", "src/internal/ambe3600x2450_const.h",
     [("AmbeW0table", "d", "AmbeW0table"), ("AmbeLtable", "d", "AmbeLtable"), ("AmbeVuv", "Z", "AmbeVuv"),
      ("AmbeLmprbl", "Z", "AmbeLmprbl"), ("AmbeDg", "d", "AmbeDg"), ("AmbePRBA24", "d", "AmbePRBA24"),
      ("AmbePRBA58", "d", "AmbePRBA58")] + [("AmbeHOCb%d" % k, "d", "AmbeHOCb%d" % k) for k in (5, 6, 7, 8)])
emit("TabAmbe2400", "src/internal/ambe3600x2400_const.h",
     [("AmbePlusLtable", "d", "AmbePlusLtable"), ("AmbePlusVuv", "Z", "AmbePlusVuv"),
      ("AmbePlusLmprbl", "Z", "AmbePlusLmprbl"), ("AmbePlusDg", "d", "AmbePlusDg"), ("AmbePlusPRBA24", "d", "AmbePlusPRBA24"),
      ("AmbePlusPRBA58", "d", "AmbePlusPRBA58")] + [("AmbePlusHOCb%d" % k, "d", "AmbePlusHOCb%d" % k) for k in (5, 6, 7, 8)])
emit("TabSynth", "src/internal/mbelib_const.h", [("Ws", "d", "Ws")])
emit("TabWola", "src/core/mbe_unvoiced_fft.c", [("Ws_synthesis", "f", "Ws_synthesis")])
