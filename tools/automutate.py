#!/usr/bin/env python3
"""Generate small edits of the model (a flipped condition, a dropped or swapped
part, a number or text off by one), rebuild a scratch copy with each until the
first proof fails, and report the edits that nothing notices.

usage: automutate.py BASE SCRATCH OUT.jsonl PER_DEFINITION SEED file.v ...

BASE is a built copy of rocq/.  Edits after which the model file itself no
longer compiles are skipped."""
import json, os, random, re, shutil, subprocess, sys
base, scratch, out, per, seed = sys.argv[1:6]
files = sys.argv[6:]
random.seed(int(seed))
per = int(per)

def blank_comments(s):
    r, d, i, q = list(s), 0, 0, False
    while i < len(s):
        if not q and s.startswith("(*", i): d += 1; r[i] = r[i+1] = " "; i += 2; continue
        if not q and d and s.startswith("*)", i): d -= 1; r[i] = r[i+1] = " "; i += 2; continue
        if d:
            if s[i] != "\n": r[i] = " "
        elif s[i] == '"': q = not q
        i += 1
    return "".join(r)

def definitions(code):
    starts = [(m.start(), m.group(1)) for m in re.finditer(r"^\s*(?:Definition|Fixpoint|with)\s+(\w+)", code, re.M)]
    stops = [m.start() for m in re.finditer(r"^\s*(?:Definition|Fixpoint|with|Inductive|Record|Section|End|Notation|Context|Arguments|Open|Local|Import|Example|Lemma)\b", code, re.M)] + [len(code)]
    for a, n in starts:
        b = min(x for x in stops if x > a)
        k = code.find(":=", a, b)
        if k > 0: yield n, k + 2, b

def balanced(t): 
    return all(t.count(x) == t.count(y) for x, y in ("()", "[]", "{}"))

SIMPLE = [(r"\btrue\b", "false"), (r"\bfalse\b", "true"), (r"&&", "||"), (r"\|\|", "&&"),
          (r"<\?", "<=?"), (r"<=\?", "<?"), (r"\bnegb\b", "(fun b : bool => b)"),
          (r"\bexistsb\b", "forallb"), (r"\bforallb\b", "existsb"),
          (r"\bhas_prefix\b", "has_suffix"), (r"\bhas_suffix\b", "has_prefix"),
          (r"\btrim_left\b", "trim_right"), (r"\bremovelast\b", "(fun l => l)"),
          (r"\brev\b", "(fun l => l)"), (r"\bpath_base\b", "path_dir"), (r"\bclean\b", "(fun s : str => s)"),
          (r"\btrim_space\b", "(fun s : str => s)"), (r"\bto_lower\b", "(fun s : str => s)"),
          (r"=\?", "<=?"), (r"\bskipn\b", "firstn"), (r"\bfirstn\b", "skipn"), (r"\bfst\b", "snd"), (r"\bsnd\b", "fst"),
          (r" \+ ", " - "), (r" - ", " + ")]

def edits(code, a, b):
    body = code[a:b]
    for pat, new in SIMPLE:
        for m in re.finditer(pat, body):
            yield m.start(), m.end(), new
    for m in re.finditer(r'(?<![\w"%.])(\d+)(?![\w".])', body):
        yield m.start(), m.end(), str(int(m.group(1)) + 1)
    for m in re.finditer(r'\$"([^"]*)"', body):
        t = m.group(1)
        yield m.start(), m.end(), '$"%s"' % (t[:-1] if t else "x")
    for m in re.finditer(r"\bif ((?:(?!\bif\b|\bthen\b|\bmatch\b).)+?) then\b", body, re.S):
        if balanced(m.group(1)): yield m.start(), m.end(), "if negb (%s) then" % m.group(1)
    for m in re.finditer(r"\bSome (\w+|\([^()]*\))", body):
        yield m.start(), m.end(), "None"
    for m in re.finditer(r"(\w+|\([^()]*\)) :: (\w+|\([^()]*\))", body):
        yield m.start(), m.end(), m.group(2)
    for m in re.finditer(r"(\w+|\([^()]*\)|\$\"[^\"]*\"|\[[^\[\]]*\]) \+\+ (\w+|\([^()]*\)|\$\"[^\"]*\"|\[[^\[\]]*\])", body):
        yield m.start(), m.end(), m.group(1)
        yield m.start(), m.end(), m.group(2)
    for m in re.finditer(r"(?<![\w|])(\w+) (\w+) (\w+)(?=[\s);])", body):
        if m.group(2) != m.group(3) and m.group(1) not in ("match", "let", "fun", "if", "then", "else", "with", "end", "in", "return", "as"):
            yield m.start(), m.end(), "%s %s %s" % (m.group(1), m.group(3), m.group(2))
    arms = [m for m in re.finditer(r"\|[^|=]*=> ([^|\n]*?)(?=\s*(?:\||end\b|\n))", body)]
    for x, y in zip(arms, arms[1:]):
        if balanced(x.group(1)) and balanced(y.group(1)) and x.group(1).strip() != y.group(1).strip() and x.group(1).strip() and y.group(1).strip():
            yield x.start(1), y.end(1), y.group(1) + body[x.end(1):y.start(1)] + x.group(1)

def restore():
    for d, _, fs in os.walk(base):
        t = scratch + d[len(base):]
        os.makedirs(t, exist_ok=True)
        for f in fs:
            p, q = d + "/" + f, t + "/" + f
            if not os.path.exists(q) or os.stat(p).st_mtime_ns != os.stat(q).st_mtime_ns or os.stat(p).st_size != os.stat(q).st_size:
                shutil.copy2(p, q)

def enclosing(path, line):
    name = None
    for i, l in enumerate(open(path), 1):
        if i > line: break
        m = re.match(r"\s*(?:Theorem|Lemma|Example|Corollary|Definition|Fixpoint|Fact|Remark)\s+(\w+)", l)
        if m: name = m.group(1)
    return name

for f in files:
    src = open(f"{base}/theories/{f}").read()
    code = blank_comments(src)
    assert len(code) == len(src)
    for name, a, b in definitions(code):
        es = list(edits(code, a, b))
        random.shuffle(es)
        n = 0
        for x, y, new in es:
            if n >= per: break
            old = src[a+x:a+y]
            restore()
            p = f"{scratch}/theories/{f}"
            open(p, "w").write(src[:a+x] + new + src[a+y:])
            r = subprocess.run(f"cd {scratch} && timeout 300 coqc -q -Q theories Verif theories/{f} 2>&1", shell=True, capture_output=True, text=True, errors="replace")
            if r.returncode != 0: continue
            n += 1
            r = subprocess.run(f"cd {scratch}; ulimit -v 5000000; timeout 1200 make -j1 2>&1", shell=True, capture_output=True, text=True, errors="replace")
            fails = [f"{os.path.basename(m.group(1))[:-2]}.{enclosing(scratch + '/' + m.group(1), int(m.group(2)))}"
                     for m in re.finditer(r'File "\./(theories/[\w/]+\.v)", line (\d+), characters [\d-]+:\nError', r.stdout)]
            ln = src.count("\n", 0, a + x) + 1
            rec = {"status": "killed" if fails else ("timeout" if r.returncode else "SURVIVED"),
                   "definition": f"{f[:-2]}.{name}", "line": ln, "old": old, "new": new, "failed": fails}
            with open(out, "a") as fh: fh.write(json.dumps(rec) + "\n")
