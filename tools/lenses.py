#!/usr/bin/env python3
"""Print the Rocq list of the catalogue lenses, read from thorlabs.py and eo.py (text only)."""
import ast
import sys
from decimal import Decimal


def dec(node, src):
    if isinstance(node, ast.Constant) and node.value is None:
        return "None"
    if isinstance(node, ast.Call):  # float("+inf")
        assert node.func.id == "float" and node.args[0].value == "+inf"
        return "inf"
    d = Decimal(ast.get_source_segment(src, node).replace(" ", ""))
    s, digits, e = d.as_tuple()
    m = int("".join(map(str, digits)))
    if e > 0:
        m, e = m * 10 ** e, 0
    m = -m if s else m
    return "(dec %s %d)" % (m if m >= 0 else "(%d)" % m, -e)


def opt(x):
    return "None" if x in ("None", "inf") else "(Some %s)" % x


def main(repo):
    out = {}
    for f in ("thorlabs", "eo"):
        src = open("%s/raytracing/%s.py" % (repo, f), encoding="utf-8").read()
        for c in ast.parse(src).body:
            if not isinstance(c, ast.ClassDef):
                continue
            (init,) = [x for x in c.body if isinstance(x, ast.FunctionDef)]
            assert init.name == "__init__"
            call = init.body[-1].value
            kw = {k.arg: k.value for k in call.keywords}
            params = [a.arg for a in init.args.args]
            takes = "true" if "wavelength" in params else "false"
            assert takes == "false" or kw["wavelength"].id == "wavelength"
            n = lambda k: dec(kw[k], src)
            mat = lambda k: '(Some "%s")' % kw[k].id if k in kw else "None"
            ref = opt(n("wavelengthRef")) if "wavelengthRef" in kw else "None"
            if c.bases[0].id == "AchromatDoubletLens":
                t = "LDoubletD (mkDoublet %s %s %s %s %s %s %s) %s" % (
                    " ".join(n(k) for k in ("fa", "fb")),
                    " ".join(opt(n(k)) for k in ("R1", "R2", "R3")),
                    " ".join(n(k) for k in ("tc1", "tc2", "te", "diameter")),
                    opt(n("n1")) + " " + opt(n("n2")), mat("mat1"), mat("mat2"), ref, takes)
            else:
                assert c.bases[0].id == "SingletLens"
                t = "LSingletD (mkSinglet %s %s %s %s %s) %s" % (
                    " ".join(n(k) for k in ("f", "fb")),
                    " ".join(opt(n(k)) for k in ("R1", "R2")),
                    " ".join(n(k) for k in ("tc", "te", "diameter")),
                    opt(n("n")) + " " + mat("mat"), ref, takes)
            out.pop(c.name, None)  # a later class of the same name replaces the earlier one
            out[c.name] = ('("%s", %s)' % (c.name, t), "%s.py %d-%d" % (f, call.lineno, call.end_lineno))
    for i, (t, l) in enumerate(out.values()):
        print("  %s %s  (* %s *)" % ("[" if i == 0 else ";", t, l))
    print("  ].")


main(sys.argv[1] if len(sys.argv) > 1 else "/repo")
