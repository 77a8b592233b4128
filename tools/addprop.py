import sys,json
# usage: addprop.py spec.json : {id,title,statement,quantifier,why,anchors,status,theorems,note,design,files}
d=json.load(open(sys.argv[1]))
prev="C%02d"%(int(d['id'][1:])-1)
p='rocq/_CoqProject'; s=open(p).read().rstrip('\n')
for n in d['files']:
    if 'theories/%s.v'%n not in s.split('\n'): s+='\ntheories/%s.v'%n
open(p,'w').write(s+'\n')
p='tools/props.py'; s=open(p).read(); i=s.rindex('with open')
J=json.dumps
e='p(%s, %s,\n  %s,\n  %s,\n  %s,\n  %s)\n\n'%tuple(json.dumps(d[k],ensure_ascii=False) for k in ['id','title','statement','quantifier','why','anchors'])
open(p,'w').write(s[:i]+e+s[i:])
p='tools/claims.py'; s=open(p).read().split('\n')
i=[k for k,l in enumerate(s) if l.startswith('c("%s"'%prev)][0]
s.insert(i+1,'c(%s,%s,%s,%s)'%tuple(json.dumps(d[k],ensure_ascii=False) for k in ['id','status','theorems','note']))
open(p,'w').write('\n'.join(s))
p='DESIGN.md'; s=open(p).read().split('\n')
i=[k for k,l in enumerate(s) if l.startswith('| %s '%prev)][0]
s.insert(i+1,"| %s | %s |"%(d['id'],d['design']))
open(p,'w').write('\n'.join(s))
