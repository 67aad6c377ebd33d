"""Rewrites section 6 of ../DESIGN.md from what Print Assumptions reports.
Needs a built ../rocq (run: python3 tools/axioms.py)."""
import os, re, shutil, subprocess, tempfile
here = os.path.dirname(os.path.abspath(__file__))
rocq = os.path.join(here, "..", "rocq")
th = os.path.join(rocq, "theories")
tmp = tempfile.mkdtemp()
groups = {}
for f in sorted(os.listdir(th)):
    if not f.endswith("Props.v"): continue
    src = open(os.path.join(th, f)).read()
    names = re.findall(r"^Print Assumptions (\w+)\.", src, re.M)
    thms = re.findall(r"^Theorem (\w+)", src, re.M)
    assert names == thms, (f, set(thms) ^ set(names))
    t = os.path.join(tmp, "Chk" + f)
    shutil.copy(os.path.join(th, f), t)
    r = subprocess.run(["coqc", "-Q", th, "Verif", t], capture_output=True, text=True)
    assert r.returncode == 0, r.stderr
    chunks = re.split(r"^(?=Axioms:|Closed under)", r.stdout, flags=re.M)[1:]
    assert len(chunks) == len(names), (f, len(chunks), len(names))
    for n, c in zip(names, chunks):
        if c.startswith("Closed"): ax = ()
        else: ax = tuple(sorted(set(re.findall(r"^([A-Za-z_][\w.']*)\s*(?::|$)", c[8:], re.M))))
        ax = tuple(sorted("Classical_Prop.classic" if a == "classic" else a for a in ax))
        groups.setdefault(ax, {}).setdefault(f[:-2], []).append(n)
prim = re.compile(r"(PrimInt63|Uint63|PrimFloat|FloatAxioms|FloatOps|SpecFloat)")
out = ["## 6. Axioms per theorem", "",
  "What `Print Assumptions` lists (generated by `tools/axioms.py`). All are the standard",
  "library's: `sig_forall_dec`, `sig_not_dec` and `functional_extensionality_dep` come with its",
  "real numbers, `classic` with its classical logic, and the primitive integers and floats with",
  "the `interval` tactic, which computes with them.", ""]
k = 0
for ax in sorted(groups, key=lambda a: (len(a), a)):
    k += 1
    logical = [a for a in ax if not prim.search(a) and not re.match(r"(int|float|add|sub|mul|div|mod|l[a-z]*|eqb.*|compare.*|abs|opp|sqrt|class.*fy|normfr.*|frshift.*|ldshift.*|next_.*|of_.*|head0.*|tail0.*)$", a.split(".")[-1])]
    rest = [a for a in ax if a not in logical]
    title = "none (closed under the global context)" if not ax else ", ".join("`%s`" % a for a in logical)
    if rest: title += " and the primitives " + ", ".join("`%s`" % a for a in rest)
    out += ["**Group %d: %s**" % (k, title), ""]
    for f in sorted(groups[ax]):
        out.append("* %s: %s" % (f, ", ".join(groups[ax][f])))
    out.append("")
p = os.path.join(here, "..", "DESIGN.md")
s = open(p).read()
i = s.index("## 6. Axioms per theorem")
open(p, "w").write(s[:i] + "\n".join(out).rstrip() + "\n")
shutil.rmtree(tmp)
