#!/usr/bin/env python3
"""Reads the data of the unit tests of /repo/test/src and writes them as Rocq lists: rocq/theories/SuiteData.v (tables of
xmath_test.c, replayed in Suite.v) and, with an argument, the long data of peaks_test.c and tail_test.c into that file
(replayed outside the build by tools/suite/run.sh)."""
import os, re, sys
from fractions import Fraction
here = os.path.dirname(os.path.abspath(__file__))
repo = "/repo/test/src/"

def dyadic(s):
    """the double nearest to a decimal literal, as (m, e) for m / 2^e"""
    f = Fraction(float(s)); e = f.denominator.bit_length() - 1
    return "(%d, %d)" % (f.numerator, e)

def arg(s):
    s = s.replace(" ", "")
    for pat, c in ((r"1\./(\d+)\.", "Inv"), (r"1\.\+1\./(\d+)\.", "OnePlusInv"), (r"1\.-1\./(\d+)\.", "OneMinusInv"), (r"(-?\d+)\.", "Int")):
        m = re.fullmatch(pat, s)
        if m: return "%s (%s)" % (c, m.group(1)) if m.group(1)[0] == "-" else "%s %s" % (c, m.group(1))
    raise ValueError(s)

def table(text, name):
    body = re.search(r"double const %s\[\]\[2\] = \{(.*?)\n\};" % name, text, re.S).group(1)
    body = re.sub(r"//.*", "", body)
    rows = re.findall(r"\{([^{}]*?),\s*(-?[\d.]+)\}", body)
    return [(arg(a), dyadic(v)) for a, v in rows]

def short():
    t = open(repo + "xmath_test.c").read()
    out = ["(** Written by tools/gen_suite.py from test/src/xmath_test.c: the tables of the tests of xlog and xexp. A row is the",
           "    argument as written there and the expected value m / 2^e, the double nearest to the decimal literal. *)",
           "From Coq Require Import ZArith List.", "Import ListNotations.", "Open Scope Z_scope.", "",
           "Inductive entry := Inv (k : Z) | OnePlusInv (k : Z) | OneMinusInv (k : Z) | Int (k : Z).", ""]
    for name, line in (("log_table", "test/src/xmath_test.c:19-268"), ("exp_table", "test/src/xmath_test.c:280-350")):
        rows = table(t, name)
        first = t[:t.index("double const %s" % name)].count("\n") + 1
        last = first + t[t.index("double const %s" % name):].split("\n};")[0].count("\n") + 1
        out += ["(** test/src/xmath_test.c:%d-%d *)" % (first, last), "Definition %s : list (entry * (Z * Z)) := [" % name,
                ";\n".join("  (%s, %s)" % r for r in rows) + "].", ""]
    open(os.path.join(here, "../rocq/theories/SuiteData.v"), "w").write("\n".join(out))

def long(path):
    out = ["From Coq Require Import ZArith List.", "Import ListNotations.", "Open Scope Z_scope."]
    t = open(repo + "test_tail_fit.h").read()
    for m in re.finditer(r"double const (\w+)\[\] = \{(.*?)\};", t, re.S):
        xs = [x.strip() for x in m.group(2).split(",") if x.strip()]
        assert all(re.fullmatch(r"\d+\.\d{8}", x) for x in xs)
        out.append("Definition %s_data : list Z := [%s]." % (m.group(1), "; ".join(str(int(x.replace(".", ""))) for x in xs)))
    for m in re.finditer(r"\.gamma = (\S+), \.sigma = (\S+), \.llhood = (\S+), \.data = (\w+)", t):
        out.append("Definition %s_ref := (%s, %s, %s)." % (m.group(4), dyadic(m.group(1)), dyadic(m.group(2)), dyadic(m.group(3))))
    t = open(repo + "peaks_test.c").read()
    b = re.search(r"double const data\[\] = \{(.*?)\};", t, re.S).group(1)
    out.append("Definition peaks_data : list (Z * Z) := [%s]." % "; ".join(dyadic(x.strip()) for x in b.split(",") if x.strip()))
    b = re.search(r"double const params\[\]\[3\] = \{(.*?)\n    \};", t, re.S).group(1)
    rows = re.findall(r"\{([\d.]+), ([\d.]+), (-[\d.]+)\}", b)
    out.append("Definition peaks_params : list ((Z * Z) * (Z * Z) * (Z * Z)) := [%s]." % "; ".join("(%s, %s, %s)" % tuple(map(dyadic, r)) for r in rows))
    open(path, "w").write("\n".join(out) + "\n")

if len(sys.argv) > 1: long(sys.argv[1])
else: short()
