"""Mutation testing: apply textual edits to the model in a scratch copy and rebuild.

usage: mutate.py MUTANTS.json  -- a list of {"file", "definition", "old", "new", "claim", ["tightened"]}
For every mutant prints the lemmas whose proofs fail and appends one line to /verif/seeded/LOG.jsonl.
Files whose compilation is not affected are reused from the compiled copy.
"""
import json, pathlib, re, shutil, subprocess, sys
SRC = pathlib.Path("/verif/rocq"); W = pathlib.Path("/tmp/w/mut"); LOG = pathlib.Path("/verif/seeded/LOG.jsonl")
muts = json.load(open(sys.argv[1])); dry = "--dry" in sys.argv
CLEAN = pathlib.Path("/tmp/w/mut_clean")
def copy(a, b):
    if b.exists(): shutil.rmtree(b)
    subprocess.run(["cp", "-a", str(a), str(b)], check=True)
copy(SRC, CLEAN)
subprocess.run("coq_makefile -f _CoqProject -o Makefile && make -j4", shell=True, cwd=CLEAN, capture_output=True)
copy(CLEAN, W)
def lemma_at(path, line):
    name = "?"
    for i, l in enumerate(path.read_text().split("\n"), 1):
        if i > line: break
        m = re.match(r"\s*(?:#\[.*\]\s*)?(?:Theorem|Lemma|Corollary|Example|Definition|Fixpoint|Instance|Remark|Fact)\s+([\w']+)", l)
        if m: name = m.group(1)
    return name
def theorems_of(v):
    return re.findall(r"^(?:Theorem|Corollary) (C\d\d\w*)", (W/"theories"/(v+".v")).read_text(), re.M)
for m in muts:
    f = W/"theories"/m["file"]; orig = f.read_text()
    if orig.count(m["old"]) < 1: print("!! not found:", m["definition"], m["old"][:50]); continue
    f.write_text(orig.replace(m["old"], m["new"], 1))
    r = subprocess.run("timeout 900 make -k -j3 2>&1", shell=True, cwd=W, capture_output=True, text=True)
    errs = re.findall(r'File "\./theories/(\w+)\.v", line (\d+), characters [\d-]+:\s*\n?Error', r.stdout)
    failed = sorted({lemma_at(W/"theories"/(v+".v"), int(n)) for v, n in errs})
    # theorem files that could not be rebuilt because a lemma they rest on broke
    notbuilt = [v.stem for v in (W/"theories").glob("*_props.v") if not v.with_suffix(".vo").exists() or v.with_suffix(".vo").stat().st_mtime < f.stat().st_mtime]
    dep = subprocess.run("coqdep -Q theories Verif theories/*.v", shell=True, cwd=W, capture_output=True, text=True).stdout
    deps = {}
    for l in dep.split("\n"):
        if ":" in l:
            a, b = l.split(":", 1)
            mm = re.match(r"theories/(\w+)\.vo ", a)
            if mm: deps[mm.group(1)] = re.findall(r"theories/(\w+)\.vo\b", b)
    bad = {v for v, _ in errs}
    def reaches(v, seen=None):
        seen = seen or set()
        return v in bad or any(reaches(d, seen | {v}) for d in deps.get(v, []) if d not in seen)
    affected = sorted(v for v in deps if v.endswith("_props") and reaches(v))
    print(("KILLED " if errs else "SURVIVED ") + m["definition"], failed, affected, flush=True)
    if not dry:
        with LOG.open("a") as out:
            out.write(json.dumps({"definition": m["definition"], "file": m["file"], "edit": {"old": m["old"], "new": m["new"]}, "claim": m["claim"],
                                  "failed": failed, "theorem_files_blocked": affected, "survived": not errs, "tightened": m.get("tightened", [])}) + "\n")
    copy(CLEAN, W)
