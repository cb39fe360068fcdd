#!/usr/bin/env python3
"""Seeded-bug harness.  usage: mutate.py mutants.json [--log]
Each mutant: {"definition","file","old","new","edit","breaks"}.  The model is copied to a
scratch directory, edited and rebuilt; a proof that no longer goes through is replaced by
Admitted so that the build continues.  A theorem of a Props file counts as failed when its
own proof fails or when it rests on an admitted lemma."""
import json,os,re,shutil,subprocess,sys,time
ROOT="/verif/rocq"; SCR="/tmp/mut/rocq"
def sh(c,t=1600):
    try:
        r=subprocess.run(c,shell=True,cwd=SCR,capture_output=True,text=True,timeout=t); return r.returncode,r.stdout+r.stderr
    except subprocess.TimeoutExpired: return 124,"timeout"
START=re.compile(r"^\s*(?:Local\s+|Global\s+|#\[[^\]]*\]\s*)?(Theorem|Lemma|Corollary|Example|Remark|Fact|Definition|Instance|Fixpoint)\s+(\w+)")
def admit(path,line):
    L=open(path).read().split("\n")
    i=line-1
    while i>=0 and not START.match(L[i]): i-=1
    if i<0: return None
    name=START.match(L[i]).group(2)
    j=i
    while j<len(L) and not re.search(r"(^|\s)Proof\b",L[j]): j+=1
    # statement ends before Proof on line j
    k=j
    while k<len(L) and not re.search(r"(^|\s)(Qed|Defined)\.",L[k]): k+=1
    if k>=len(L) or j>line-1+400: return None
    nxt=[x for x in range(i+1,j) if START.match(L[x])]
    if nxt: return ("STMT",name)
    pos=re.search(r"(^|\s)Proof\b",L[j]).start()
    L[j]=L[j][:pos]+" Proof. Admitted."
    for x in range(j+1,k+1): L[x]=""
    open(path,"w").write("\n".join(L)); return ("PROOF",name)
def run(m):
    subprocess.run("mkdir -p /tmp/mut && rm -rf %s && cp -a /tmp/mutbase %s"%(SCR,SCR),shell=True,check=True)
    p=SCR+"/theories/"+m["file"]; s=open(p).read()
    assert s.count(m["old"])==1,(m["definition"],s.count(m["old"]))
    open(p,"w").write(s.replace(m["old"],m["new"]))
    failed=[]; t0=time.time()-1
    for it in range(60):
        rc,out=sh("timeout 1500 make -j2 2>&1")
        if rc==0: break
        e=re.search(r'File "\./(theories/\w+\.v)", line (\d+), characters',out)
        if not e: failed.append("build: "+out[-300:]); break
        r=admit(SCR+"/"+e.group(1),int(e.group(2)))
        if r is None or r[0]=="STMT":
            failed.append("definition/statement no longer typechecks near %s:%s (%s)"%(e.group(1),e.group(2),r and r[1])); break
        failed.append(r[1])
    # dependants
    deps=[]
    if failed:
        names=[]
        for f in sorted(os.listdir(SCR+"/theories")):
            if f.startswith("Props") and f.endswith(".v") and os.path.exists(SCR+"/theories/"+f+"o") and os.path.getmtime(SCR+"/theories/"+f+"o")>=t0:
                th=re.findall(r"^Theorem (C\d+_\w+)",open(SCR+"/theories/"+f).read(),re.M)
                q="From Verif Require Import %s.\n"%f[:-2]+"".join('Goal True. idtac "@@%s". exact I. Qed.\nPrint Assumptions %s.\n'%(t,t) for t in th)
                open("/tmp/mut/q.v","w").write(q)
                rc,out=sh("coqc -Q theories Verif /tmp/mut/q.v")
                for blk in out.split("@@")[1:]:
                    t,_,rest=blk.partition("\n")
                    if any(re.search(r"\b%s\b"%re.escape(x),rest) for x in failed if " " not in x): names.append(t.strip())
        deps=names
    thm=sorted(set([x for x in failed if re.match(r"C\d+_",x)]+deps))
    return failed,thm
if __name__=="__main__":
    ms=json.load(open(sys.argv[1])); log="--log" in sys.argv
    subprocess.run("rm -rf /tmp/mutbase && cp -a %s /tmp/mutbase"%ROOT,shell=True,check=True)
    for m in ms:
        t=time.time(); failed,thm=run(m)
        rec={"definition":m["definition"],"edit":m["edit"],"breaks":m["breaks"],"theorems_failed":thm,"other_failures":[x for x in failed if x not in thm][:12],"tightened":m.get("tightened",[])}
        print(json.dumps(rec),"%.0fs"%(time.time()-t),flush=True)
        if log: open("/verif/seeded/LOG.jsonl","a").write(json.dumps(rec)+"\n")
