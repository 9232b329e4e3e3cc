"""Rebuild ASSUMPTIONS.md: what Print Assumptions lists for every theorem of MANIFEST.json (run after make in rocq/).
With names of modules as arguments only their theorems are looked at anew."""
import glob, json, os, re, subprocess, sys, tempfile
root = os.path.dirname(os.path.dirname(os.path.abspath(__file__)))
where = {}
for f in sorted(glob.glob(root + "/rocq/theories/*Props*.v")):
    for m in re.finditer(r"^\s*Theorem (C\d+_\w+)", open(f).read(), re.M):
        where[m.group(1)] = os.path.basename(f)[:-2]
names = [t for c in json.load(open(root + "/MANIFEST.json"))["claims"] for t in c["theorems"]]
result = {}
if sys.argv[1:]:
    for g in open(root + "/ASSUMPTIONS.md").read().split("\n## ")[1:]:
        head, ts = g.strip().split("\n\n")
        for t in ts.split(", "):
            result[t] = tuple(re.findall(r"`([^`]+)`", head))
for mod in sorted(set(sys.argv[1:] or where.values())):
    mine = [t for t in names if where[t] == mod]
    src = f"From Verif Require {mod}.\n" + "".join(f'Print Assumptions Verif.{mod}.{t}.\nEval compute in {i}.\n' for i, t in enumerate(mine))
    with tempfile.TemporaryDirectory() as d:
        open(d + "/q.v", "w").write(src)
        out = subprocess.run(["coqc", "-Q", root + "/rocq/theories", "Verif", d + "/q.v"], capture_output=True, text=True)
        assert out.returncode == 0, out.stderr
    for t, part in zip(mine, re.split(r"^ +=[^\n]*\n +: nat\n", out.stdout, flags=re.M)):
        if "Closed under the global context" in part:
            result[t] = ()
        else:
            result[t] = tuple(sorted(set(re.findall(r"^([\w.']+) :", part, re.M))
                                     | set(re.findall(r"^([\w.']+)$", part, re.M)) - {"Axioms:"}))
groups = {}
for t in names:
    groups.setdefault(result[t], []).append(t)
with open(root + "/ASSUMPTIONS.md", "w") as f:
    f.write("# What `Print Assumptions` lists for each theorem\n\nGenerated by `tools/gen_assumptions.py`. Names without prefix are from the standard library;\n"
            "`PrimFloat.*`, `PrimInt63.*` and the `*_spec` names of `FloatAxioms`/`Uint63` are Coq's primitive\nfloats and integers.\n")
    for axs, ts in sorted(groups.items(), key=lambda g: len(g[0])):
        f.write("\n## " + ("No axioms" if not axs else ", ".join(f"`{a}`" for a in axs)) + "\n\n")
        f.write(", ".join(ts) + "\n")
print(len(names), "theorems,", len(groups), "groups;", sorted(set(a for g in groups for a in g)))
