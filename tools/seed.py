#!/usr/bin/env python3
"""Mutation testing of the theorems.
usage: seed.py SEEDFILE [name ...]     (run in the repository; needs a built rocq/ directory)
Each seed in SEEDFILE (a Python list SEEDS of dicts name, file, old, new, definition, edit, breaks) is applied to a scratch
copy of rocq/; every dependent file is recompiled, and each proof that no longer goes through is cut off with Admitted,
so that Print Assumptions at the end tells which theorems depend on a broken proof and which still prove.
Appends one line per seed to seeded/LOG.jsonl (unless NOLOG=1)."""
import sys, os, re, subprocess, shutil, json, time
root = os.path.dirname(os.path.dirname(os.path.abspath(__file__)))
ns = {}; exec(open(sys.argv[1]).read(), ns); seeds = ns["SEEDS"]
only = sys.argv[2:]
def deps(d):
    files = [l.strip() for l in open(d + "/_CoqProject") if l.strip().endswith(".v")]
    out = subprocess.run(["coqdep", "-Q", "theories", "Verif"] + files, cwd=d, capture_output=True, text=True).stdout
    g = {}
    for l in out.splitlines():
        if ".vo" in l.split(":")[0] and not l.split()[0].endswith(".vio"):
            tgt = l.split()[0]; name = os.path.basename(tgt)[:-3]
            g[name] = {os.path.basename(x)[:-3] for x in l.split(":", 1)[1].split() if x.endswith(".vo")}
    return [os.path.basename(f)[:-2] for f in files], g
def sentence_cut(src, a):
    """cut the proof that contains offset a: returns new source or None if a is not inside a proof"""
    starts = [m.start() for m in re.finditer(r"^[ \t]*(?:Global |Local )?(?:Theorem|Lemma|Corollary|Example|Fact|Remark|Definition|Fixpoint|Record|Inductive|Section|End|Instance|Program)\b", src, re.M)]
    st = [s for s in starts if s <= a]
    if not st: return None
    s = st[-1]
    m = re.compile(r"\bProof\b[^.]*\.").search(src, s)
    q = re.compile(r"\b(Qed|Defined|Admitted)\.").search(src, s)
    if not m or not q or m.end() > q.start() or not (m.start() <= a <= q.end()): return None
    cut = max(a, m.end())
    name = re.match(r"[ \t]*(?:Global |Local )?\w+\s+([\w']+)", src[s:]).group(1)
    if src[q.start():q.end()] == "Admitted.": return None
    return name, src[:cut] + "\n Admitted." + src[q.end():]
def run(seed):
    d = "/tmp/seed_" + seed["name"]
    shutil.rmtree(d, ignore_errors=True)
    shutil.copytree(os.environ.get("SEEDBASE", root + "/rocq"), d, symlinks=True)
    order, g = deps(d)
    f = d + "/theories/" + seed["file"] + ".v"
    src = open(f).read()
    if src.count(seed["old"]) != 1:
        print("SEED", seed["name"], ": pattern occurs", src.count(seed["old"]), "times"); return None
    open(f, "w").write(src.replace(seed["old"], seed["new"]))
    dirty = {seed["file"]}
    broken, cuts, assum = set(), [], {}
    t0 = time.time()
    for name in order:
        if name != seed["file"] and not (g.get(name, set()) & dirty): continue
        dirty.add(name)
        if g.get(name, set()) & broken: broken.add(name); continue
        p = d + "/theories/" + name + ".v"
        while True:
            try:
                r = subprocess.run(["coqc", "-time", "-Q", "theories", "Verif", "theories/" + name + ".v"], cwd=d, capture_output=True, timeout=int(os.environ.get("LIMIT", "300")))
                out, err, rc = r.stdout.decode(errors="replace"), r.stderr.decode(errors="replace"), r.returncode
            except subprocess.TimeoutExpired as e:
                out, err, rc = (e.stdout or b"").decode(errors="replace"), "", 124
            if rc == 0: break
            b = open(p, "rb").read()
            ch = re.findall(r"Chars (\d+) - (\d+)", out)
            a = int(ch[-1][1]) if ch else 0
            em = re.search(r'line (\d+), characters (\d+)-', err)
            if rc != 124 and em:   # error position (bytes)
                lines = b.split(b"\n"); a2 = sum(len(x) + 1 for x in lines[:int(em.group(1)) - 1]) + int(em.group(2))
            else: a2 = a + 1
            s = b.decode()
            # -time offsets are byte offsets; the failing sentence is printed as well
            inside = [int(x) for x, y in ch if int(x) <= a2 <= int(y)]
            cutb = inside[-1] if (inside and rc != 124) else a
            a_ch = len(b[:cutb].decode(errors="ignore")); a2_ch = len(b[:a2].decode(errors="ignore"))
            c = sentence_cut(s, a2_ch)
            if c:
                c1 = sentence_cut(s, a_ch)
                if c1 and c1[0] == c[0]: c = c1
                else: c = sentence_cut(s, s.index("Proof", s.rfind(c[0], 0, a2_ch)) + 1)
            if not c:
                broken.add(name); cuts.append(name + ":" + (err.strip().splitlines()[-1] if err.strip() else "timeout")); break
            cuts.append(c[0]); open(p, "w").write(c[1])
        if name not in broken and name.endswith("_props"):
            names = re.findall(r"^Print Assumptions ([\w']+)\.", open(p).read(), re.M)
            o = re.sub(r"Chars \d+ - \d+ \[.*?\] [\d.]+ secs.*\n", "", out)
            parts = re.findall(r"(Closed under the global context|Axioms:\n(?:.+\n)*?(?=Closed under|Axioms:|\Z))", o)
            if len(parts) != len(names): print("warning: assumptions of", name, len(parts), len(names))
            for n, q in zip(names, parts): assum[n] = q.startswith("Closed")
    for name in broken:
        if name.endswith("_props"):
            for n in re.findall(r"^(?:Theorem|Corollary)\s+(C\d+_\w+)", open(d + "/theories/" + name + ".v").read(), re.M): assum[n] = False
    failed = sorted(n for n in assum if not assum[n])
    shutil.rmtree(d, ignore_errors=True)
    mine = [n for n in assum if n.split("_")[0] in seed["breaks"].split()]
    res = dict(definition=seed["definition"], file="rocq/theories/" + seed["file"] + ".v", edit=seed["edit"], claim_broken=seed["breaks"],
               theorems_failed=failed, theorems_tightened=seed.get("tightened", []))
    if seed.get("note"): res["note"] = seed["note"]
    okd = bool(set(mine) & set(failed)) or any(n.split("_")[0] in seed["breaks"].split() for n in failed)
    print("SEED %-28s %s  failed %d  (%ds)  cuts: %s" % (seed["name"], "caught" if okd else "*** MISSED", len(failed), time.time() - t0, cuts[:8]))
    print("   failed:", failed)
    print("   still proved for", seed["breaks"], ":", [n for n in mine if assum[n]]); sys.stdout.flush()
    if not os.environ.get("NOLOG"): open(root + "/seeded/LOG.jsonl", "a").write(json.dumps(res) + "\n")
for s in seeds:
    if not only or s["name"] in only: run(s)
