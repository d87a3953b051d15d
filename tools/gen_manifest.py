import json,os,re
C=[]
def c(p,st,th,note): C.append(dict(property=p,status=st,theorems=th,note=note))
exec(open(os.path.join(os.path.dirname(__file__),'claims.py')).read())
names=set()
d=os.path.join(os.path.dirname(__file__),'../rocq/theories')
for f in os.listdir(d):
    if f.endswith('.v'): names|=set(re.findall(r'^Theorem\s+(\w+)',open(os.path.join(d,f)).read(),re.M))
for x in C:
    for t in x['theorems']:
        assert t in names,t
props=[json.loads(l)['id'] for l in open(os.path.join(os.path.dirname(__file__),'../properties.jsonl'))]
assert sorted(x['property'] for x in C)==sorted(set(x['property'] for x in C))
print('missing',set(props)-set(x['property'] for x in C))
json.dump({"claims":sorted(C,key=lambda x:x['property'])},open(os.path.join(os.path.dirname(__file__),'../MANIFEST.json'),'w'),indent=1)
