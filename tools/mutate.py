# Mutation testing: python3 tools/mutate.py FILE where FILE defines M = [(file, definition, old, new, claim), ...]
# Each edit is made in a scratch copy, the copy is rebuilt, and one line is added to seeded/LOG.jsonl.
import sys, os, re, json, subprocess, shutil
SRC=os.environ.get('MUT_SRC','/verif/rocq'); W='/tmp/mut'; W0='/tmp/mut0'
ns={}; exec(open(sys.argv[1]).read(), ns); M=ns['M']
def copy(a,b):
    shutil.rmtree(b,ignore_errors=True); subprocess.run(['cp','-a',a,b],check=True)
copy(SRC,W)
def build():
    r=subprocess.run('coq_makefile -f _CoqProject -o Makefile >/dev/null && ulimit -v 8000000; timeout 1500 make -k -j2 2>&1',shell=True,cwd=W,capture_output=True,text=True)
    return r.stdout
def theorem_at(f,line):
    L=open(f).read().split('\n')[:line]
    for l in reversed(L):
        m=re.match(r'\s*(?:Theorem|Lemma|Example|Corollary|Definition|Fixpoint)\s+(\w+)',l)
        if m: return m.group(1)+('(example)' if 'Example' in m.group(0) else '')
    return '?'
build()
copy(W,W0)
for (f,d,old,new,claim) in M:
    p=f'{W}/theories/{f}.v'; s=open(p).read()
    if s.count(old)<1: print('NOT FOUND',f,d,old); continue
    # the occurrence inside the definition
    i=re.search(r'(?:Definition|Fixpoint|Record)\s+'+re.escape(d)+r'\b',s).start()
    j=s.index(old,i); open(p,'w').write(s[:j]+new+s[j+len(old):])
    out=build()
    fails=[]
    for m in re.finditer(r'File "\./(theories/\w+\.v)", line (\d+)[^\n]*\n(?:Error|.*?Error)',out):
        fails.append(os.path.basename(m.group(1))[:-2]+'.'+theorem_at(f'{W}/{m.group(1)}',int(m.group(2))))
    dep=sorted(set(re.findall(r'^make.*\*\*\* \[.*: theories/(\w+)\.vo',out,re.M)))
    ok='SURVIVED' if not fails and not dep else 'killed'
    print(ok,f,d,'|',claim,'|',fails,flush=True)
    with open('/verif/seeded/LOG.jsonl','a') as L:
        L.write(json.dumps({"definition":f+'.'+d,"edit":f'{old.strip()}  ->  {new.strip()}',"claim":claim,"failed":fails,"survived":ok=='SURVIVED',"tightened":[]})+'\n')
    copy(W0,W)
