#!/usr/bin/env python3
"""Mutation test of the theorems, in a scratch copy outside /verif.
usage: mutate.py SPEC.py [-n]     SPEC.py defines M = [dict(file=, defn=, old=, new=, edit=, claim=, expect=[props]), ...]
For each mutant: edit the model, rebuild; every lemma whose proof breaks is replaced by Admitted so that the
build can go on; property theorems (names C<nn>...) that break themselves, or that depend on a
broken lemma, are reported.  Appends to /verif/seeded/LOG.jsonl unless -n."""
import sys,os,re,subprocess,json,shutil
SRC="/verif/rocq"; W=os.environ.get("MUTDIR","/tmp/mut")
spec={}; exec(open(sys.argv[1]).read(),spec)
dry="-n" in sys.argv
BASE=W+".base"; shutil.rmtree(BASE,ignore_errors=True); subprocess.run(["cp","-a",SRC,BASE],check=True)
files=[l.strip() for l in open(SRC+"/_CoqProject") if l.strip().endswith(".v")]
def deps(f):
    t=open(SRC+"/"+f).read(); r=set()
    for m in re.finditer(r"From Verif Require Import ([^.]*)\.",t): r|=set(m.group(1).split())
    return r
name=lambda f: os.path.basename(f)[:-2]
def affected(f0):
    bad={f0}; out=[]
    for f in files:
        if name(f)==f0 or deps(f)&bad: bad.add(name(f)); out.append(f)
    return out
def coqc(f):
    with open(W+"/out.txt","w") as g:
        try: p=subprocess.run(["coqc","-time","-Q","theories","Verif",f],cwd=W,stdout=g,stderr=subprocess.PIPE,text=True,timeout=int(os.environ.get("MUTT","1500")))
        except subprocess.TimeoutExpired:
            c=re.findall(r"(?m)^Chars (\d+) - (\d+) ",open(W+"/out.txt").read())
            # the sentence after the last one completed is the one that does not end: its line
            pos=int(c[-1][1])+2 if c else 0
            return None,"timeout: line %d, characters"%(open(W+"/"+f,"rb").read()[:pos].count(b"\n")+1),""
    class P: pass
    q=P(); q.returncode=p.returncode; q.stderr=p.stderr; q.stdout="".join(l for l in open(W+"/out.txt") if not l.startswith("Chars ")); p=q
    return p.returncode,p.stderr,p.stdout
START=re.compile(r"^\s*(?:Local |Global |#\[[^\]]*\] *)?(Lemma|Theorem|Example|Corollary|Fact|Remark|Instance|Program Definition|Definition|Fixpoint)\s+([A-Za-z0-9_']+)",re.M)
for m in spec["M"]:
    shutil.rmtree(W,ignore_errors=True); subprocess.run(["cp","-a",BASE,W],check=True)
    p=W+"/theories/"+m["file"]+".v"; t=open(p).read()
    assert t.count(m["old"])==1,(m["defn"],t.count(m["old"]))
    open(p,"w").write(t.replace(m["old"],m["new"]))
    failed=[]; props=set(); fatal=None
    for f in affected(m["file"]):
        while True:
            rc,err,out=coqc(f)
            if rc==0:
                cur=None
                # attribute Print Assumptions output
                src=open(W+"/"+f).read()
                pas=re.findall(r"Print Assumptions ([A-Za-z0-9_']+)\.",src)
                blocks=re.split(r"(?m)^(?=Closed under|Axioms:)",out)
                blocks=[b for b in blocks if b.startswith(("Closed","Axioms:"))]
                for n,b in zip(pas,blocks):
                    if b.startswith("Axioms:") and any(x in b for x in failed): props.add(n)
                break
            e=re.search(r'line (\d+), characters',err or "")
            if not e: fatal=(f,(err or "")[-300:]); break
            L=int(e.group(1)); src=open(W+"/"+f).read(); lines=src.split("\n"); off=sum(len(x)+1 for x in lines[:L-1])+1
            st=[s for s in START.finditer(src) if s.start()<=off]
            # proof containing off
            done=False
            if st:
                s=st[-1]; nm=s.group(2)
                pr=re.compile(r"\bProof\b[^.]*\.").search(src,s.end())
                q=re.compile(r"\b(Qed|Defined)\.").search(src,s.end())
                if pr and q and pr.start()<q.start() and off<=q.end() and off>=pr.start()-1:
                    src=src[:pr.start()]+"Proof. Admitted."+src[q.end():]
                    # keep line numbers irrelevant
                    open(W+"/"+f,"w").write(src); failed.append(nm)
                    if re.match(r"C\d\d",nm): props.add(nm)
                    done=True
            if not done: fatal=(f,err[-400:]); break
        if fatal: break
    props={x for x in props if re.match(r"C\d\d",x)}
    rec=dict(definition=m["file"]+"."+m["defn"],edit=m["edit"],claim_broken=m["claim"],lemmas_failed=[x for x in failed if not re.match(r"C\d\d",x)][:12],theorems_failed=sorted(props),theorems_tightened=m.get("tightened",[]))
    if fatal: rec["note"]="build could not continue after "+fatal[0]
    print(json.dumps(rec),flush=True)
    if fatal: print("   FATAL",fatal,flush=True)
    if not props and not failed and not fatal: print("   *** SURVIVED ***",flush=True)
    if not dry:
        with open("/verif/seeded/LOG.jsonl","a") as g: g.write(json.dumps(rec)+"\n")
