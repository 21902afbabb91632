"""Group the theorems of rocq/theories/*Props.v by what Print Assumptions lists (after a build)."""
import glob, os, re, subprocess, tempfile
root = os.path.dirname(os.path.dirname(os.path.abspath(__file__)))
groups = {}
for f in sorted(glob.glob(os.path.join(root, "rocq", "theories", "*Props.v"))):
    mod = os.path.basename(f)[:-2]
    names = re.findall(r"^Theorem\s+(C\d+_\w+)", open(f).read(), re.M)
    with tempfile.TemporaryDirectory() as d:
        p = os.path.join(d, "Query.v")
        with open(p, "w") as o:
            o.write("From Verif Require Import %s.\nSet Printing Width 1000.\n" % mod)
            o.writelines("Print Assumptions %s.\n" % t for t in names)
        r = subprocess.run(["coqc", "-Q", os.path.join(root, "rocq", "theories"), "Verif", p],
                           capture_output=True, text=True, timeout=900)
    parts = re.findall(r"Closed under the global context|Axioms:\n(?:(?!Closed|Axioms:).*\n)*", r.stdout)
    assert len(parts) == len(names), (mod, len(parts), len(names), r.stderr)
    for t, part in zip(names, parts):
        axioms = tuple(sorted(re.findall(r"^([\w.]+)\s*:", part.replace("Axioms:", ""), re.M)))
        groups.setdefault(axioms, []).append(t)
for axioms, names in sorted(groups.items()):
    print("%d theorems: %s" % (len(names), ", ".join(axioms) or "closed under the global context"))
    if axioms:
        print("   " + " ".join(sorted(names)))
