#!/usr/bin/env python3
"""Write rocq/theories/Tests/RepoTests.v: the tables of the tests in /repo, as
computations of the model.  usage: repotests.py [/repo]"""
import re, sys
repo = sys.argv[1] if len(sys.argv) > 1 else "/repo"
def lit(s):
    if "\n" in s:
        return "(" + ' ++ ["010"%char] ++ '.join(lit(x) for x in s.split("\n")) + ")"
    return '$"' + s.replace('"', '""') + '"'
def gostr(s): return bytes(s, "utf8").decode("unicode_escape")
out = ['''(** The tables of the unit tests of the repository, computed with the model.
    Written by tools/repotests.py from the files named below.  These are tests of the model, not proofs of
    properties: they show that it gives what the authors of the code expect of the code. *)
From Coq Require Import String Ascii List Bool ZArith.
From Verif.Model Require Import GoStr GoPath Tar Squash Pep440 Specifier Pep345 DirectURL Wrap Help.
From Verif.Spec Require Import SimpleAPISpec.
Import ListNotations.
''']
# 01_version_scheme_test.go
src = open(f"{repo}/pkg/python/pep440/01_version_scheme_test.go").read()
body = src[src.index("testcases := map[string][]string{"):src.index("for tcName, tcData := range testcases")]
lists = [re.findall(r'"([^"]+)"', m) for m in re.findall(r'":\s*\{\n(.*?)\n\t\t\},', body, re.S)]
lists = [[re.sub(r"\s*//.*", "", x) for x in l] for l in lists]
out.append("(** pkg/python/pep440/01_version_scheme_test.go TestSort: each version of a list is less than the next *)")
out.append("Fixpoint ascending (l : list str) : bool :=\n  match l with\n  | a :: (b :: _) as l' => (match parse_version a, parse_version b with Some x, Some y => (cmp x y <? 0)%Z && (0 <? cmp y x)%Z | _, _ => false end) && ascending l'\n  | _ => true\n  end.".replace("a :: (b :: _) as l'", "a :: ((b :: _) as l')"))
out.append("Example sort_tests : forallb ascending\n  [" + ";\n   ".join("[" + "; ".join(map(lit, l)) + "]" for l in lists) + "] = true.\nProof. vm_compute. reflexivity. Qed.\n")
nlists = len(lists)
body = src[src.index("func TestNormalize"):src.index("func TestEquality")]
pairs = [(gostr(a), b) for a, b in re.findall(r'":\s+\{"([^"]*)", "([^"]*)"\}', body)]
out.append("(** TestNormalize *)")
out.append("Example normalize_tests : map (fun s => option_map version_string (parse_version s))\n  [" + "; ".join(lit(a) for a, _ in pairs) + "] =\n  [" + "; ".join("Some " + lit(b) if b else "None" for _, b in pairs) + "].\nProof. vm_compute. reflexivity. Qed.\n")
rows = re.findall(r'\{mustParseVersion\(t, "([^"]*)"\), (\d+), (\d+), (\d+), (\w+) /\*+local\*/, "([^"]*)", (\w+) /\*+public\*/, "([^"]*)", (\w+)\}', src)
out.append("(** TestUtilMethods *)")
out.append("Example util_tests : map (fun s => option_map (fun v =>\n    ((major (pub v), minor (pub v), micro (pub v), is_prerelease (pub v)), (version_string v, is_final v), (public_string (pub v), public_is_final (pub v)))) (parse_version s))\n  [" + "; ".join(lit(r[0]) for r in rows) + "] =\n  [" + ";\n   ".join(f"Some (({r[1]}, {r[2]}, {r[3]}, {r[4]}), ({lit(r[5].strip())}, {r[6]}), ({lit(r[7].strip())}, {r[8]}))" for r in rows) + "]%Z.\nProof. vm_compute. reflexivity. Qed.\n")
syms = re.findall(r'\{mustParseVersion\(t, "([^"]*)"\), mustParseVersion\(t, "([^"]*)"\)\}', src)
out.append("(** TestSymmetry *)")
out.append("Example symmetry_tests : forallb (fun '(a, b) => match parse_version a, parse_version b with Some x, Some y => (cmp x y =? - cmp y x)%Z | _, _ => false end)\n  [" + "; ".join(f"({lit(a)}, {lit(b)})" for a, b in syms) + "] = true.\nProof. vm_compute. reflexivity. Qed.\n")
# 02_version_specifiers_test.go
src = open(f"{repo}/pkg/python/pep440/02_version_specifiers_test.go").read()
rows = re.findall(r'^\t\t"[\w-]+":\s+\{"([^"]*)", (.*), (?:""|`[^`]*`)\},', src, re.M)
exp = []
for s, v in rows:
    if v == "nil": exp.append("Err")
    elif v == "pep440.Specifier{}": exp.append("Ok []")
    else:
        m = re.match(r'pep440\.Specifier\{\{pep440\.CmpOp(\w+), mustParseVersion\(t, "([^"]*)"\)\}\}', v)
        exp.append(f"Ok [(Op{m.group(1)}, parse_version {lit(m.group(2))})]")
out.append("(** pkg/python/pep440/02_version_specifiers_test.go TestParseSpecifier *)")
out.append("Example parse_specifier_tests : map (fun s => match parse_specifier s with Ok cs => Ok (map (fun c => (c_op c, Some (c_ver c))) cs) | Err => Err | Panic => Panic end)\n  [" + "; ".join(lit(s) for s, _ in rows) + "] =\n  [" + "; ".join(exp) + "].\nProof. vm_compute. reflexivity. Qed.\n")
nspec = len(rows)
body = src[src.index("func TestSpecifiers"):]
rows = re.findall(r'\{"([^"]*)", "([^"]*)", (true|false)\}', body)
out.append("(** TestSpecifiers *)")
out.append("Example specifier_tests : map (fun '(v, s) => match parse_version v, parse_specifier s with Some v, Ok cs => Some (match_specifier cs v) | _, _ => None end)\n  [" + "; ".join(f"({lit(a)}, {lit(b)})" for a, b, _ in rows) + "] =\n  map Some [" + "; ".join(r[2] for r in rows) + "].\nProof. vm_compute. reflexivity. Qed.\n")
nmatch = len(rows)
# metadata_test.go
src = open(f"{repo}/pkg/python/pep345/metadata_test.go").read()
rows = re.findall(r'\{parseVersion\(t, "([^"]*)"\), "([^"]*)", (true|false), (""|`[^`]*`)\}', src)
out.append("(** pkg/python/pep345/metadata_test.go TestHaveRequiredPython *)")
out.append("Example required_python_tests : map (fun '(v, s) => match parse_version v with Some v => have_required_python v s | None => None end)\n  [" + "; ".join(f"({lit(a)}, {lit(b)})" for a, b, _, _ in rows) + "] =\n  [" + "; ".join("Some " + r[2] if r[3] == '""' else "None" for r in rows) + "].\nProof. vm_compute. reflexivity. Qed.\n")
npy = len(rows)
# squash_test.go
src = open(f"{repo}/pkg/squash/squash_test.go").read()
body = src[src.index("testcases := map[string]struct"):src.index("for tcName, tc := range testcases")]
types = {"Reg": "0", "Dir": "5", "Symlink": "2", "Char": "3", "Block": "4"}
def entries(text, skip):
    r = []
    for m in re.finditer(r'\{Name: "([^"]*)", Type: tar\.Type(\w+)(?:, Linkname: "([^"]*)")?((?:, \w+: true)*)\}', text):
        if skip and "NoOCIBuild" in m.group(4): continue
        r.append(f'({lit(m.group(1))}, "{types[m.group(2)]}"%char, {lit(m.group(3) or "")})')
    return "[" + "; ".join(r) + "]"
out.append("(** pkg/squash/squash_test.go TestSquash: names, types and link texts *)")
out.append("Definition test_entry (e : str * ascii * str) : entry :=\n  let '(name, type, link) := e in (mkHeader type name link 0 420 0 0 [] [] None None None 0 0 [] 0, []).")
out.append("Definition squash_test (layers : list (list (str * ascii * str))) : run (list (str * ascii * str)) :=\n  bind (squash 40 insertion_sort (fun _ l => l) (map (map test_entry) layers))\n    (fun out => Ret (map (fun e => (th_name (fst e), th_type (fst e), th_link (fst e))) out)).")
nsq = 0
for m in re.finditer(r'\t\t"([\w-]+)": \{\n\t\t\tInput: \[\]TestLayer\{\n(.*?)\n\t\t\t\},\n\t\t\tOutput: TestLayer\{\n(.*?)\n\t\t\t\},\n', body, re.S):
    layers = [entries(x, False) for x in re.split(r'\n\t\t\t\t\},\n', m.group(2) + "\n") if "Name" in x]
    out.append(f"Example squash_{m.group(1).replace('-', '_')} : squash_test\n  [" + ";\n   ".join(layers) + "] =\n  Ret " + entries(m.group(3), True) + ".\nProof. vm_compute. reflexivity. Qed.")
    nsq += 1
# json_test.go
src = open(f"{repo}/pkg/python/pypa/direct_url/json_test.go").read()
url = re.search(r'URL:\s+"([^"]*)"', src).group(1); exp = re.search(r'Output: `([^`]*)`', src).group(1)
out.append("\n(** pkg/python/pypa/direct_url/json_test.go TestJSONDumps *)")
out.append(f"Example json_test : url_text (mkUrl {lit(url)} None (Some []) None) =\n  {lit(exp)}.\nProof. vm_compute. reflexivity. Qed.\n")
# cobra_tmpl_test.go
src = open(f"{repo}/pkg/cliutil/cobra_tmpl_test.go").read()
out.append("(** pkg/cliutil/cobra_tmpl_test.go TestHelpTemplate; the table of flags, which is made by pflag, is taken from the\n    expected text *)")
use = re.search(r'Use:\s+"(frob[^"]*)"', src).group(1); short = re.search(r'Short: "(One line description of program[^"]*)"', src).group(1)
long = "".join(re.findall(r'"([^"]*)"', re.search(r'Long: (.*?),\n\t\t\t\t\tRunE', src, re.S).group(1)))
nh = 0
for m in re.finditer(r'^\t\t"([\w-]+)": \{\n(.*?)^\t\t\},\n', src, re.S | re.M):
    cmdtext, exptext = m.group(2).split("ExpectedHelp:")
    exptext = "\n".join(l for l in exptext.split("\n") if not l.strip().startswith("//"))
    text = gostr("".join(re.findall(r'"((?:[^"\\]|\\.)*)"', exptext)))
    fl = text.index("Flags:\n") + 7
    flags = text[fl:].split("\n\n")[0].rstrip("\n") + "\n"
    sub = re.search(r'Use:\s+"(example-subcommand)[^"]*".*?Short: "([^"]*)"', cmdtext, re.S)
    subs = f'[mkSub {lit(sub.group(1))} {lit("frobnicate " + sub.group(1))} {lit(sub.group(2))} true false]' if sub else "[]"
    sh = lit(short) if 'One line description of program' in cmdtext else "[]"
    out.append(f"Example help_{m.group(1).replace('-', '_')} : help 80 (mkCommand {lit(use)}\n  {sh}\n  {lit(long) if 'Long:' in cmdtext else '[]'}\n  None [] {lit('frobnicate')} {subs}\n  (Some (fun _ => {lit(flags)})) None) =\n  Some {lit(text)}.\nProof. vm_compute. reflexivity. Qed.")
    nh += 1
print(nlists, len(pairs), nspec, nmatch, npy, nsq, nh, file=sys.stderr)
open(f"{sys.path[0]}/../rocq/theories/Tests/RepoTests.v", "w").write("\n".join(out) + "\n")
