import json,re,glob,os
os.chdir('/verif')
props=[json.loads(l) for l in open('properties.jsonl')]
claims={c['property']:c for c in json.load(open('MANIFEST.json'))['claims']}
thm={}
for f in sorted(glob.glob('rocq/theories/*.v')):
    for mm in re.finditer(r'^(?:Theorem|Lemma|Corollary|Example)\s+(\w+)',open(f).read(),re.M): thm.setdefault(mm.group(1),os.path.basename(f)[:-2])
ns={}; exec(open('tools/methods.py').read(),ns); method=ns['method']
out=open('tools/design_head.md').read()
out+='\n## Properties: what is modelled, how it is proved\n\n| Id | Property | Model | Proof | Theorems |\n|----|----|----|----|----|\n'
for p in props:
    i=p['id']; c=claims.get(i,{'theorems':[],'note':''}); mo,me=method.get(i,('',''))
    fs=sorted({thm.get(t,'?') for t in c['theorems']})
    out+='| %s | %s | %s | %s | %s: %s |\n'%(i,p['title'],mo,me,', '.join(fs),', '.join('`%s`'%t for t in c['theorems']))
out+='\n## Restrictions and notes per property\n\n'
for p in props:
    c=claims.get(p['id']); 
    if c and c.get('note'): out+='* %s (%s): %s\n'%(p['id'],c['status'],c['note'])
out+='\n## Modelled and not modelled\n\nThe header of each model file, verbatim:\n\n'
for f in sorted(glob.glob('rocq/theories/*Model.v')):
    s=open(f).read(); mm=re.match(r'\(\*(.*?)\*\)',s,re.S)
    out+='**%s**: %s\n\n'%(os.path.basename(f),' '.join(mm.group(1).split()) if mm else '')
out+='''Not modelled at all: tool modules (SCons/Tool/*), Platform beyond quoting and response files, SConf, the option parser (beyond what is listed above), the
language-specific scanners' regular expressions, printing, debugging and statistics output, Windows and Cygwin behaviour, compatibility modules.

'''
out+=open('tools/design_findings.md').read()
open('DESIGN.md','w').write(out)
