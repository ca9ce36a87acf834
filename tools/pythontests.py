#!/usr/bin/env python3
"""Write rocq/theories/Tests/PythonTests.v: random cases, with what Python says of them, as computations
of the specifications.  Needs the module packaging (or that of pip) and Python 3.11.  usage: pythontests.py [seed]"""
import configparser, csv, io, json, os, posixpath, random, stat, sys, urllib.parse
try:
    from packaging.version import Version, InvalidVersion
    from packaging.specifiers import Specifier
    from packaging.utils import canonicalize_name, parse_wheel_filename, InvalidWheelFilename
    from packaging.tags import parse_tag
except ImportError:
    from pip._vendor.packaging.version import Version, InvalidVersion
    from pip._vendor.packaging.specifiers import Specifier
    from pip._vendor.packaging.utils import canonicalize_name, parse_wheel_filename, InvalidWheelFilename
    from pip._vendor.packaging.tags import parse_tag
R = random.Random(int(sys.argv[1]) if len(sys.argv) > 1 else 7)
def lit(s):
    parts, cur = [], ""
    for ch in s:
        if ord(ch) < 32 or ord(ch) == 127:
            if cur: parts.append('$"' + cur.replace('"', '""') + '"'); cur = ""
            parts.append('["%03d"%%char]' % ord(ch))
        else: cur += ch
    if cur or not parts: parts.append('$"' + cur.replace('"', '""') + '"')
    return parts[0] if len(parts) == 1 else "(" + " ++ ".join(parts) + ")"
def num(): return R.choice(["0", "1", "2", "3", "00", "01", "10", "12", "2024", "9"])
def sep(): return R.choice(["", ".", "-", "_"])
def ver(strange=True, small=False):
    n = (lambda: R.choice(["0", "1", "2"])) if small else num
    s = ""
    if R.random() < .2: s += R.choice(["v", "V"])
    if R.random() < .15: s += n() + "!"
    s += ".".join(n() for _ in range(R.choice([1, 1, 2, 2, 3, 4])))
    if R.random() < .35: s += sep() + R.choice(["a", "b", "rc", "c", "alpha", "beta", "pre", "preview", "A", "RC", "Beta", "prE"]) + R.choice([sep() + n(), "", sep() + n()])
    if R.random() < .3: s += R.choice(["-" + n(), sep() + R.choice(["post", "rev", "r", "POST", "Rev"]) + R.choice([sep() + n(), ""])])
    if R.random() < .3: s += sep() + R.choice(["dev", "DEV", "Dev"]) + R.choice([sep() + n(), ""])
    if R.random() < .3: s += "+" + R.choice([".", "-", "_"]).join(R.choice(["1", "2", "01", "abc", "ABC", "a1", "1a", "0", "ubuntu", "x"]) for _ in range(R.choice([1, 2, 3])))
    if R.random() < .1: s = R.choice([" ", "\t", "\n"]) + s + R.choice(["", " "])
    if strange and R.random() < .3:
        for _ in range(R.choice([1, 1, 2])):
            i = R.randrange(len(s) + 1); s = s[:i] + R.choice(["", ".", "-", "+", "!", "a", "1", "v", "*", " ", "_"]) + s[i + R.choice([0, 1]):]
    return s
def parsed(s):
    try: return Version(s)
    except InvalidVersion: return None
def good(**kw):
    while True:
        s = ver(False, **kw)
        if parsed(s): return s
out = ['''(** Random cases with the results of Python, computed with the specifications and the model.
    Written by tools/pythontests.py with the modules packaging, configparser, stat, csv, json, posixpath and urllib.  These are tests of
    the specifications, not proofs of properties: they show that the specifications say what Python does. *)
From Coq Require Import String Ascii List Bool Arith ZArith NArith Lia.
From Verif.Model Require Import GoStr GoPath Pep440 Specifier WheelName ConfigParser Stat DirectURL SimpleAPI Record.
From Verif.Spec Require Import Pep440Spec SpecifierSpec PyConfigSpec DirectURLSpec RecordSpec PyNameSpec.
Import ListNotations.
''']
def example(name, term, doc):
    out.append(f"(** {doc} *)\nExample {name} : {term} = true.\nProof. vm_compute. reflexivity. Qed.\n")
# versions
rows = []
for _ in range(300):
    s = ver(); v = parsed(s); rows.append(f"({lit(s)}, {'Some ' + lit(str(v)) if v else 'None'})")
out.append('''Definition same_text (a b : option str) : bool := match a, b with Some a, Some b => str_eqb a b | None, None => true | _, _ => false end.''')
example("versions", "forallb (fun '(s, e) => same_text (option_map version_string (parse_version s)) e)\n  [" + ";\n   ".join(rows) + "]", "str(Version(s)), or None if s is no version")
vs = [good() for _ in range(25)] + [good(small=True) for _ in range(25)]
res = ["Lt" if Version(a) < Version(b) else "Gt" if Version(a) > Version(b) else "Eq" for a in vs for b in vs]
out.append('''Definition parsed (s : str) : version :=
  match parse_version s with Some v => v | None => mkVersion (mkPublic 0 [] None None None) [] end.
Definition same_order (a b : comparison) : bool := match a, b with Lt, Lt | Eq, Eq | Gt, Gt => true | _, _ => false end.''')
example("order", "(let vs := map parsed [" + "; ".join(map(lit, vs)) + "] in\n  forallb (fun '(ab, c) => same_order (pep440_compare (fst ab) (snd ab)) c) (combine (list_prod vs vs)\n  [" + ";".join(res) + "]))", "the order of packaging")
# specifiers
out.append('''(** The predicates of Spec/SpecifierSpec.v, decided *)
Definition same_release_b (a b : list Z) : bool := forallb (fun i => (nth i a 0 =? nth i b 0)%Z) (seq 0 (max (length a) (length b))).
Lemma same_release_dec a b : same_release_b a b = true <-> same_release a b.
Proof.
  unfold same_release_b, same_release. rewrite forallb_forall. split; intros H i.
  - destruct (lt_dec i (max (length a) (length b))) as [L|L].
    + apply Z.eqb_eq, H, in_seq. lia.
    + rewrite !nth_overflow by lia. reflexivity.
  - intros _. apply Z.eqb_eq, H.
Qed.
Definition same_base_b (a b : version) : bool := (epoch (pub a) =? epoch (pub b))%Z && same_release_b (release (pub a)) (release (pub b)).
Lemma same_base_dec a b : same_base_b a b = true <-> same_base a b.
Proof. unfold same_base_b, same_base. rewrite andb_true_iff, Z.eqb_eq, same_release_dec. reflexivity. Qed.
Definition some {A} (o : option A) : bool := match o with Some _ => true | None => false end.
Lemma some_dec {A} (o : option A) : some o = true <-> o <> None.
Proof. destruct o; cbn; intuition congruence. Qed.
Definition pre_or_dev_b (v : version) : bool := some (pre (pub v)) || some (dev (pub v)).
Lemma pre_or_dev_dec v : pre_or_dev_b v = true <-> pre_or_dev v.
Proof. unfold pre_or_dev_b, pre_or_dev. rewrite orb_true_iff, !some_dec. reflexivity. Qed.
Definition below_b (V v : version) : bool :=
  match pep440_compare v V with Lt => negb (pre_or_dev_b v && negb (pre_or_dev_b V) && same_base_b v V) | _ => false end.
Lemma below_dec V v : below_b V v = true <-> below V v.
Proof.
  unfold below_b, below. rewrite <- !pre_or_dev_dec, <- same_base_dec.
  destruct (pep440_compare v V), (pre_or_dev_b v), (pre_or_dev_b V), (same_base_b v V); cbn; intuition congruence.
Qed.
Definition above_b (V v : version) : bool :=
  match pep440_compare v V with
  | Gt => negb (some (post (pub v)) && negb (some (post (pub V))) && same_base_b v V) && negb (match local v with [] => false | _ => true end && same_base_b v V)
  | _ => false
  end.
Lemma above_dec V v : above_b V v = true <-> above V v.
Proof.
  unfold above_b, above, is_post. rewrite <- !some_dec, <- same_base_dec.
  destruct (pep440_compare v V), (some (post (pub v))), (some (post (pub V))), (same_base_b v V), (local v); cbn; intuition congruence.
Qed.
Definition at_most_b (V v : version) : bool := match public_compare (pub v) (pub V) with Gt => false | _ => true end.
Definition at_least_b (V v : version) : bool := match public_compare (pub v) (pub V) with Lt => false | _ => true end.
Lemma at_most_dec V v : at_most_b V v = true <-> at_most V v.
Proof. unfold at_most_b, at_most. destruct (public_compare _ _); cbn; intuition congruence. Qed.
Lemma at_least_dec V v : at_least_b V v = true <-> at_least V v.
Proof. unfold at_least_b, at_least. destruct (public_compare _ _); cbn; intuition congruence. Qed.
Definition strictly_equal_b (V v : version) : bool :=
  match local V with [] => same_order (public_compare (pub V) (pub v)) Eq | _ => same_order (pep440_compare V v) Eq end.
Lemma strictly_equal_dec V v : strictly_equal_b V v = true <-> strictly_equal V v.
Proof. unfold strictly_equal_b, strictly_equal. destruct (local V); [destruct (public_compare _ _)|destruct (pep440_compare _ _)]; cbn; intuition congruence. Qed.
(** prefixes without pre-release and post-release *)
Definition prefix_b (p v : version) : bool :=
  (epoch (pub p) =? epoch (pub v))%Z && forallb (fun i => (nth i (release (pub v)) 0 =? nth i (release (pub p)) 0)%Z) (seq 0 (length (release (pub p)))).
Lemma prefix_dec p v : pre (pub p) = None -> post (pub p) = None -> prefix_b p v = true <-> prefix_agrees p v.
Proof.
  intros E F. unfold prefix_b, prefix_agrees. rewrite E, F, andb_true_iff, Z.eqb_eq, forallb_forall. apply and_iff_compat_l. split; intros H i.
  - intros L. apply Z.eqb_eq, H, in_seq. lia.
  - intros I. apply Z.eqb_eq, H. apply in_seq in I. lia.
Qed.
''')
def spec_rows(op, n, suffix="", **kw):
    rows = []
    while len(rows) < n:
        V, v = good(small=True).strip(), good(small=True).strip()
        if R.random() < .4: v = V + R.choice(["", ".0", ".1", ".post1", "a1", ".dev1", "+x", ".0.0"])
        if not parsed(v): continue
        pv = Version(V)
        if pv.local and op not in ("==", "!="): continue
        if suffix and (pv.is_prerelease or pv.is_postrelease or pv.local): continue
        if op == "~=" and len(pv.release) < 2: continue
        if op == "~=" or suffix: V = str(pv)  # packaging takes the text apart as it is
        rows.append(f"({lit(V)}, {lit(v)}, {'true' if Specifier(op + V + suffix).contains(v, prereleases=True) else 'false'})")
    return "[" + ";\n   ".join(rows) + "]"
check = "forallb (fun '(V, v, e) => Bool.eqb (%s) e)\n  "
for name, op, term in [("below", "<", "below_b (parsed V) (parsed v)"), ("above", ">", "above_b (parsed V) (parsed v)"),
                       ("at_most", "<=", "at_most_b (parsed V) (parsed v)"), ("at_least", ">=", "at_least_b (parsed V) (parsed v)"),
                       ("equal", "==", "strictly_equal_b (parsed V) (parsed v)"),
                       ("compatible", "~=", "at_least_b (parsed V) (parsed v) && prefix_b (series (parsed V)) (parsed v)")]:
    example(name + "_cases", (check % term) + spec_rows(op, 60), f'Specifier("{op}V").contains(v, prereleases=True)')
example("prefix_cases", (check % "prefix_b (parsed V) (parsed v)") + spec_rows("==", 60, ".*"), 'Specifier("==V.*").contains(v, prereleases=True)')
# configparser
bodies = ["[s]", "[t]", "[u]", "k = v", "a: b", "b=c", "c", "d = e # f", "K = w", "# c", "; c", "", "", " ", "e =", "= f", "[x", "g = h : i", "[] ", "[s] # c", "a:", "m=1", "n=2", "o=3", "p=4",
          "[DEFAULT]", "[s]]x", "[]x]", "[]=3", "[ s ]", "x = =", "\x1cq = r", "q = r\x1d", ":", "y\x0b = \x0cz", "[q]:3"]
rows = []
for _ in range(250):
    L = [R.choice(["", "", "", "", " ", "  ", "\t", "   "]) + R.choice(bodies if R.random() < .25 else bodies[:13]) for _ in range(R.choice([2, 3, 4, 6, 8]))]
    if R.random() < .8: L.insert(0, R.choice(["[s0]", "[s0]", "[DEFAULT]"]))
    t = "".join(l + R.choice(["\n", "\n", "\n", "\r\n", "\r"]) for l in L)
    if R.random() < .3: t = t[:-1]
    strict = R.random() < .6
    p = configparser.RawConfigParser(strict=strict)
    try:
        p.read_file(io.TextIOWrapper(io.BytesIO(t.encode())))
        r = "Some [" + "; ".join(f"({lit(s)}, [" + "; ".join(f"({lit(k)}, {lit(v)})" for k, v in {**p._defaults, **p._sections[s]}.items()) + "])" for s in p._sections) + "]"
    except configparser.Error: r = "None"
    rows.append(f"({lit(t)}, {'true' if strict else 'false'}, {r})")
out.append('''Definition same_section (a b : list (str * str)) : bool :=
  Nat.eqb (length a) (length b) && forallb (fun '(x, y) => str_eqb (fst x) (fst y) && str_eqb (snd x) (snd y)) (combine a b).
Definition same_config (a b : option (list (str * list (str * str)))) : bool :=
  match a, b with
  | Some a, Some b => Nat.eqb (length a) (length b) && forallb (fun '(x, y) => str_eqb (fst x) (fst y) && same_section (snd x) (snd y)) (combine a b)
  | None, None => true
  | _, _ => false
  end.''')
example("configs", "forallb (fun '(t, s, e) => same_config (py_read [$\"=\"; $\":\"] [$\"#\"; $\";\"] s to_lower t) e)\n  [" + ";\n   ".join(rows) + "]", "RawConfigParser(strict).read_file; the sections with the defaults")
# modes
ms = [t | R.randrange(4096) for t in [stat.S_IFREG, stat.S_IFDIR, stat.S_IFLNK, stat.S_IFBLK, stat.S_IFCHR, stat.S_IFIFO, stat.S_IFSOCK] for _ in range(20)]
example("modes", "forallb (fun '(m, e) => str_eqb (mode_string m) e)\n  [" + "; ".join(f"({m}%N, {lit(stat.filemode(m))})" for m in ms) + "]", "stat.filemode")
# comma-separated values
def field(): return "".join(R.choice(['a', 'b', ' ', ',', '"', '\r\n', 'x', '1', '']) for _ in range(R.choice([0, 1, 2, 4])))
rows = []
for _ in range(60):
    table = [[field() for _ in range(R.choice([2, 3]))] for _ in range(R.choice([0, 1, 2, 3]))]
    f = io.StringIO(); csv.writer(f).writerows(table)
    rows.append(f"({lit(f.getvalue())}, [" + "; ".join("[" + "; ".join(map(lit, r)) + "]" for r in table) + "])")
out.append("""Definition same_row (a b : list str) : bool := Nat.eqb (length a) (length b) && forallb (fun '(x, y) => str_eqb x y) (combine a b).
Definition same_table (a b : list (list str)) : bool := Nat.eqb (length a) (length b) && forallb (fun '(x, y) => same_row x y) (combine a b).""")
example("tables", "forallb (fun '(t, e) => match rfc4180 t with Some r => same_table r e | None => false end)\n  [" + ";\n   ".join(rows) + "]", "csv.writer(f).writerows(table)")
# JSON
def value(d):
    k = R.choice("asaon" if d else "sn")
    if k == "a": return [value(d - 1) for _ in range(R.choice([0, 1, 2, 3]))]
    if k == "o": return {c: value(d - 1) for c in R.sample("abcd", R.choice([0, 1, 2, 3]))}
    if k == "s": return R.choice(["", "x", "y z"])
    return R.choice([0, 17, True, False, None])
def coq(v):
    if isinstance(v, list): return "JArr [" + "; ".join(coq(x) for x in v) + "]"
    if isinstance(v, dict): return "JObj [" + "; ".join(f"({lit(json.dumps(k))}, {coq(x)})" for k, x in sorted(v.items())) + "]"
    return f"JAtom {lit(json.dumps(v))}"
rows = [(v := value(3), f"({coq(v)}, {lit(json.dumps(v, sort_keys=True))})")[1] for _ in range(60)]
example("json_texts", "forallb (fun '(v, e) => str_eqb (py_dumps v) e)\n  [" + ";\n   ".join(rows) + "]", "json.dumps(v, sort_keys=True)")
rows = []
for _ in range(60):
    t = '"' + "".join(R.choice(['a', '\\\\', '\\"', '\\n', '\\t', '\\u0026', '\\u003C', '\\/', '\\b', '\\f', '\\r', '\\x', '\t', '"', "'", ' ', '\\u00', '<']) if R.random() < .6 else 'b' for _ in range(R.choice([0, 1, 3, 5]))) + R.choice(['"', '"', '"', ''])
    try: e = json.loads(t)
    except ValueError: e = None
    if e and not e.isascii(): continue
    e = "None" if e is None else "Some " + lit(e)
    rows.append(f"({lit(t)}, {e})")
example("json_strings", "forallb (fun '(t, e) => same_text (string_value t) e)\n  [" + ";\n   ".join(rows) + "]", "json.loads of a string literal, None if it is none")
# names and tags
names = ["".join(R.choice("abXY19-_.") for _ in range(R.choice([1, 3, 6, 9]))) for _ in range(60)]
example("names", "forallb (fun '(n, e) => str_eqb (normalize n) e)\n  [" + "; ".join(f"({lit(n)}, {lit(canonicalize_name(n))})" for n in names) + "]", "packaging.utils.canonicalize_name")
rows = []
for _ in range(40):
    part = lambda l: ".".join(R.sample(l, R.choice([1, 1, 2, 3])))
    t = "-".join([part(["py2", "py3", "cp39", "pp37"]), part(["none", "abi3", "cp39m"]), part(["any", "linux_x86_64", "win32", "manylinux1_i686"])])
    rows.append(f"({lit(t)}, [" + "; ".join(lit(str(x)) for x in parse_tag(t)) + "])")
example("tags", "forallb (fun '(t, e) => match parse_tag t with\n    | Some t => let l := map tag_string (decompress t) in Nat.eqb (length l) (length e) && forallb (fun x => existsb (str_eqb x) l) e\n    | None => false\n    end)\n  [" + ";\n   ".join(rows) + "]", "packaging.tags.parse_tag; the elements of a set")
rows = []
for _ in range(80):
    t = "-".join([R.choice(["a", "A.b", "x__y", "x_y", "", "p+q", "Foo"]), R.choice(["1.0", "1.0RC1", "x", "2!1.post3"])]
        + R.choice([[], [], ["1"], ["12b3"], ["b"], [""], ["007"]])
        + [R.choice(["py3", "PY2.py3", "", "cp39"]), R.choice(["none", "abi3.none", ""]), R.choice(["any", "Linux_x86_64.any", "win32"])]
        + R.choice([[], [], [], ["z"]])) + R.choice([".whl", ".whl", ".whl", ".zip"])
    try:
        n, v, b, tags = parse_wheel_filename(t)
        e = f"Some ({lit(n)}, {lit(str(v))}, " + (f"Some ({b[0]}%N, {lit(b[1])})" if b else "None") + ", [" + "; ".join(lit(str(x)) for x in tags) + "])"
    except InvalidWheelFilename: e = "None"
    rows.append(f"({lit(t)}, {e})")
example("wheel_names", """forallb (fun '(t, e) => match parse_wheel_filename t, e with
    | Some w, Some (n, v, b, l) =>
        str_eqb (pw_name w) n && str_eqb (version_string (pw_version w)) v &&
        match pw_build w, b with Some (x, y), Some (x', y') => N.eqb x x' && str_eqb y y' | None, None => true | _, _ => false end &&
        Nat.eqb (length (pw_tags w)) (length l) && forallb (fun x => existsb (fun '(p, a, q) => str_eqb x (p ++ $"-" ++ a ++ $"-" ++ q)) (pw_tags w)) l
    | None, None => true
    | _, _ => false
    end)\n  [""" + ";\n   ".join(rows) + "]", "packaging.utils.parse_wheel_filename")
# paths
def path(): return "".join(R.choice(["/", "/", "a", "b", ".", "..", "c"]) for _ in range(R.choice([1, 3, 5, 8])))
paths = [p for p in (path() for _ in range(90)) if not (p.startswith("//") and not p.startswith("///"))]
example("clean_paths", "forallb (fun '(p, e) => str_eqb (clean p) e)\n  [" + "; ".join(f"({lit(p)}, {lit(posixpath.normpath(p))})" for p in paths) + "]", "posixpath.normpath")
pairs = [("/a" + path(), "/a" + path()) for _ in range(60)]
example("relative_paths", "forallb (fun '(b, t, e) => str_eqb (rel_abs b t) e)\n  [" + ";\n   ".join(f"({lit(b)}, {lit(t)}, {lit(posixpath.relpath(t, b))})" for b, t in pairs) + "]", "posixpath.relpath(t, b)")
# URLs
def query(): return "".join(R.choice(["a", "b", "&", "&", "=", "+", "%41", "%3d", "%2B", "%26", "c"]) for _ in range(R.choice([1, 4, 8, 12])))
qs = [query() for _ in range(60)]
example("queries", "forallb (fun '(q, e) => let '(l, ok) := parse_query q in ok && same_section l e)\n  [" + ";\n   ".join(f"({lit(q)}, [" + "; ".join(f"({lit(k)}, {lit(v)})" for k, v in urllib.parse.parse_qsl(q, keep_blank_values=True)) + "])" for q in qs) + "]", "urllib.parse.parse_qsl(q, keep_blank_values=True)")
here = os.path.dirname(os.path.abspath(__file__))
open(os.path.join(here, "..", "rocq", "theories", "Tests", "PythonTests.v"), "w").write("\n".join(out))
