"""Regenerate the list of modelled code in DESIGN.md (between the markers) from the headers and citations of the model files."""
import glob, os, re
root = os.path.join(os.path.dirname(__file__), "..")
th = os.path.join(root, "rocq", "theories")
B, E = "<!-- modelled code: begin -->", "<!-- modelled code: end -->"
props = {}
for f in glob.glob(os.path.join(th, "*_props.v")):
    props[os.path.basename(f)[:-8]] = sorted(set(re.findall(r"^\s*(?:Theorem|Corollary) (C\d+)", open(f).read(), re.M)), key=lambda c: int(c[1:]))
rows = ["| model file | property files and ids | code |", "|---|---|---|"]
for f in sorted(glob.glob(os.path.join(th, "*_model.v"))):
    name = os.path.basename(f); area = name[:-8]; text = open(f).read()
    head = " ".join(re.match(r"\(\*\*?(.*?)\*\)", text, re.S).group(1).split())
    srcs = sorted(set(re.findall(r"(?:postbound/)?((?:[a-z_]+/)*_?[a-z_]+\.py)", text)))
    users = sorted(a for a in props if a == area or (os.path.exists(os.path.join(th, a + "_props.v")) and re.search(r"\b%s_model\b" % area, open(os.path.join(th, a + "_props.v")).read()) and not os.path.exists(os.path.join(th, a + "_model.v"))))
    ids = ", ".join(c for a in users for c in props[a])
    cut = head if len(head) <= 260 else head[:260].rsplit(" ", 1)[0] + " ..."
    rows.append("| %s | %s | %s [%s] |" % (name, ids, cut.replace("|", "/"), ", ".join(srcs)))
p = os.path.join(root, "DESIGN.md"); s = open(p).read()
a, b = s.index(B) + len(B), s.index(E)
open(p, "w").write(s[:a] + "\n" + "\n".join(rows) + "\n" + s[b:])
