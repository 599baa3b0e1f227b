#!/usr/bin/env python3
"""Rebuild the proofs against a wrongly edited model and say which property theorems fall.

usage: mutate.py MUTANTS.json OUT.jsonl [name ...]

Works in a scratch copy (/tmp/mut).  A proof that no longer compiles is replaced by
Admitted and the build goes on; Print Assumptions under the property theorems then
names every property that rests on such a proof."""
import json, os, re, shutil, signal, subprocess, sys, time
SRC = os.environ.get("MUT_SRC", "/verif/rocq"); W = os.environ.get("MUT_DIR", "/tmp/mut")
J = os.environ.get("MUT_J", "2")
START = re.compile(r"^\s*(?:#\[[^\]]*\]\s*)?(?:Local |Global )?(Lemma|Theorem|Example|Corollary|Fact|Remark|Instance)\s+(\w+)", re.M)

LIMIT = int(os.environ.get("MUT_T", "2400")); END = [0]

class Ran: pass
def run(cmd, t=None):
    p = subprocess.Popen(cmd, shell=True, cwd=W, stdout=subprocess.PIPE, stderr=subprocess.STDOUT, text=True, start_new_session=True)
    try: out, _ = p.communicate(timeout=max(1, END[0] - time.time()))
    except subprocess.TimeoutExpired:
        os.killpg(p.pid, signal.SIGKILL); p.communicate(); raise
    r = Ran(); r.stdout = out; r.returncode = p.returncode
    return r

def admit(path, line):
    s = open(path).read()
    off = len("\n".join(s.split("\n")[:line - 1])) + 1
    off_end = off + len(s.split("\n")[line - 1])
    cand = [m for m in START.finditer(s) if m.start() <= off_end]
    if not cand: return None
    m = cand[-1]
    pr = re.compile(r"\bProof\b[^.]*\.").search(s, m.end())
    if not pr: return None
    q = re.compile(r"\b(Qed|Defined)\.").search(s, pr.end())
    if not q or q.end() < off: return None
    body = s[pr.end():q.start()]
    if body.strip() == "Admitted": return None
    using = ""
    sec = s.rfind("field_laws S)", 0, m.start())
    endp = s.rfind("\nEnd ", 0, m.start())
    if sec > endp and re.search(r"\bL\b|\bfield\b|\bring\b|k_div|lit_ne|\bside\b", s[m.start():q.start()]):
        using = " using L"
    keep = "\n" * s[pr.start():q.end()].count("\n")
    s = s[:pr.start()] + "Proof%s. Admitted." % using + keep + s[q.end():]
    open(path, "w").write(s)
    return m.group(2)

def one(mt):
    END[0] = time.time() + LIMIT
    shutil.rmtree(W, ignore_errors=True); subprocess.check_call(["cp", "-a", SRC, W])
    run("coq_makefile -f _CoqProject -o Makefile")
    p = W + "/theories/" + mt["file"]
    s = open(p).read()
    if s.count(mt["old"]) < 1: return {"error": "pattern not found"}
    n = mt.get("nth", 0)
    i = re.search(r"(?:Definition|Fixpoint) %s\b" % mt["in"], s).start() if mt.get("in") else -1
    for _ in range(n + 1): i = s.index(mt["old"], i + 1)
    if mt.get("all"): s = s.replace(mt["old"], mt["new"])
    else: s = s[:i] + mt["new"] + s[i + len(mt["old"]):]
    open(p, "w").write(s)
    failed = mt["failed"] = []; t0 = time.time()
    for it in range(200):
        tg = " ".join("theories/Properties%s.vo" % t for t in mt.get("targets") or [])
        r = run("make -k -j%s %s" % (J, tg))
        errs = re.findall(r'File "\./theories/(\w+)\.v", line (\d+), characters[^\n]*\n(?:(?!File).*\n)*?(Error[^\n]*(?:\n[^\n]+)?)', r.stdout)
        if r.returncode == 0: break
        if not errs: return {"error": "build failed: " + r.stdout[-1500:], "failed": failed}
        prog = False
        for f, l, e in errs:
            nm = admit(W + "/theories/%s.v" % f, int(l))
            if nm is None: return {"error": "%s:%s %s" % (f, l, e), "failed": failed}
            prog = True; failed.append(f + "." + nm)
        if not prog: return {"error": "no progress", "failed": failed}
    props = []
    for f in sorted(os.listdir(W + "/theories")):
        if not (f.startswith("Properties") and f.endswith(".v")): continue
        src = open(W + "/theories/" + f).read()
        if not os.path.exists(W + "/theories/" + f + "o"): continue
        if os.path.getmtime(W + "/theories/" + f + "o") < t0: continue
        names = re.findall(r"^Print Assumptions (\w+)\.", src, re.M)
        out = run("coqc -Q theories Verif theories/" + f).stdout
        blocks = re.findall(r"^(Closed under the global context|Axioms:\n(?:.+\n?)*?(?=^Closed|^Axioms:|\Z))", out, re.M)
        for nme, b in zip(names, blocks):
            if not b.startswith("Closed"): props.append(nme)
    return {"failed": failed, "props": props, "secs": int(time.time() - t0)}

def main():
    muts = json.load(open(sys.argv[1])); sel = sys.argv[3:]
    done = set()
    if os.path.exists(sys.argv[2]): done = {json.loads(l)["name"] for l in open(sys.argv[2])}
    for mt in muts:
        if sel and mt["name"] not in sel: continue
        if mt["name"] in done and not sel: continue
        try: r = one(mt)
        except Exception as e: r = {"error": repr(e), "failed": mt.get("failed")}
        r["name"] = mt["name"]
        open(sys.argv[2], "a").write(json.dumps(r) + "\n")
main()
