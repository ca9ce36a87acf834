#!/usr/bin/env python3
"""Apply each seeded bug of a JSON file to a scratch copy of rocq/ and report
which lemmas stop compiling.  usage: mutate.py bugs.json [out.jsonl]

bugs.json: list of {"file", "definition", "old", "new", "edit", "claim"}.
One JSON line per bug is appended to out.jsonl; "tightened" is filled in by hand.
With FIRST set in the environment a rebuild stops at the first failure."""
import json, os, re, shutil, subprocess, sys
root = os.path.dirname(os.path.dirname(os.path.abspath(__file__)))
bugs = json.load(open(sys.argv[1]))
out = sys.argv[2] if len(sys.argv) > 2 else None
scratch = os.environ.get("SCRATCH", "/tmp/mut")
keep = "" if os.environ.get("FIRST") else "-k"
def enclosing(path, line):
    name = None
    for i, l in enumerate(open(path), 1):
        if i > line: break
        m = re.match(r"\s*(?:Local |Global |#\[\w+\] )?(?:Theorem|Lemma|Example|Corollary|Definition|Fixpoint|Fact|Remark)\s+(\w+)", l)
        if m: name = m.group(1)
    return name
for b in bugs:
    shutil.rmtree(scratch, ignore_errors=True)
    subprocess.run(["cp", "-a", os.environ.get("BASE", f"{root}/rocq"), scratch], check=True)
    p = f"{scratch}/theories/{b['file']}"
    s = open(p).read()
    if s.count(b["old"]) < 1:
        print("NOT FOUND", b["definition"], b["old"]); continue
    if s.count(b["old"]) > 1 and not b.get("first"):
        print("AMBIGUOUS", b["definition"], b["old"], s.count(b["old"])); continue
    open(p, "w").write(s.replace(b["old"], b["new"], 1))
    r = subprocess.run(f"cd {scratch} && timeout 1500 make {keep} -j2 2>&1", shell=True, capture_output=True, text=True, errors="replace")
    fails = []
    for m in re.finditer(r'File "\./(theories/[\w/]+\.v)", line (\d+), characters [\d-]+:\nError', r.stdout):
        f, l = m.group(1), int(m.group(2))
        fails.append(f"{os.path.basename(f)[:-2]}.{enclosing(scratch + '/' + f, l)}")
    notbuilt = []
    d = f"{scratch}/theories/Props"
    for f in sorted(os.listdir(d)):
        if keep and f.endswith(".v"):
            vo = f"{d}/{f}o"
            st = subprocess.run(f"cd {scratch} && make -q theories/Props/{f}o >/dev/null 2>&1", shell=True).returncode
            if st != 0: notbuilt.append(f[:-2])
    rec = {"definition": f"{b['file'][:-2]}.{b['definition']}", "edit": b["edit"], "claim": b["claim"],
           "failed": fails, "property_files_not_rebuilt": notbuilt, "tightened": []}
    print(("SURVIVED " if not fails else "killed   ") + json.dumps(rec), flush=True)
    if out and fails:
        with open(out, "a") as fh: fh.write(json.dumps(rec) + "\n")
