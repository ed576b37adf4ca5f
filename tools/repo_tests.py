"""Writes rocq/theories/Repo_data.v and Repo_tests.v from the test files of /repo (read as text)."""
import json, os, re, sys
sys.path.insert(0, os.path.dirname(os.path.abspath(__file__)))
import miniyaml
from miniyaml import Map, Plain, YErr
BASE='/repo/MAPL_engine/'
def cs(s):
    s=''.join(c if ord(c)<128 else '?' for c in s)
    out=''; 
    if any(ord(c)<32 and c not in '\n\t\r' for c in s): raise Exception('ctl')
    return '"'+s.replace('\r','').replace('"','""')+'"%string'
def scal(v):
    if v is None: return ''
    if v is True: return 'true'
    if v is False: return 'false'
    return str(v)
def iface(v):
    if v is None: return 'GNil'
    if v is True: return '(GBool true)'
    if v is False: return '(GBool false)'
    if isinstance(v,int): return '(GInt (%d)%%Z)'%v
    if isinstance(v,float): return '(GFloat (fl %s))'%cs(repr(v))
    if isinstance(v,str): return '(GStr %s)'%cs(v)
    if isinstance(v,Map): return '(GMapI [%s])'%'; '.join('(%s,%s)'%(iface(k),iface(x)) for k,x in v)
    if isinstance(v,list): return '(GArr [%s])'%'; '.join(map(iface,v))
    raise Exception(type(v))
def get(m,k,d=None):
    if m is None: return d
    for a,b in m:
        if a==k: return b
    return d
def gets(m,k): 
    v=get(m,k)
    if isinstance(v,list): raise YErr('cannot unmarshal list into string '+k)
    return cs(scal(v))
def rule(r):
    s=get(r,'sender');rc=get(r,'receiver');rs=get(r,'resource')
    for x in (s,rc,rs):
        if x is not None and not isinstance(x,Map): raise YErr('struct')
    has=any(k=='conditions' for k,_ in r) and get(r,'conditions') is not None
    meta='[%s]'%'; '.join('(%s,%s)'%(cs(scal(k)),cs(scal(v))) for k,v in (get(r,'metadata') or []))
    t='(Some %s)'%iface(get(r,'conditions')) if has else 'None'
    return '(mkYR %s %s)'%(' '.join([gets(r,'ruleID'),gets(s,'senderName'),gets(s,'senderType'),gets(rc,'receiverName'),gets(rc,'receiverType'),gets(r,'protocol'),gets(rs,'resourceType'),gets(rs,'resourceName'),gets(r,'operation'),gets(r,'decision'),gets(r,'hash')]),meta+' '+t)
def rules(fn):
    y=miniyaml.load(open(os.path.join(BASE,fn),encoding='utf-8').read())
    return '[%s]'%';\n '.join(rule(r) for r in (get(y,'rules') or []))
def message(m):
    ev=get(m,'encryption_version')
    size=get(m,'request_size') or 0
    f=lambda k:gets(m,k)
    return '(mkMessage %s (%d)%%Z %s %s None None None None %s f_zero f_zero f_zero [] [] [] [])'%(
      ' '.join(map(f,['sender_ip','sender_namespace','sender_cluster','receiver_ip','receiver_port','receiver_namespace','receiver_cluster','request_path','request_host','request_method'])),size,
      ' '.join(map(f,['request_time','request_user_agent','request_protocol','message_id','sender_service','receiver_service','sender_labels','receiver_labels','request_type','encryption_type'])),
      'None' if ev is None else '(Some (fl %s))'%cs(repr(float(ev))), f('domain'))
def messages(fn):
    y=miniyaml.load(open(os.path.join(BASE,fn),encoding='utf-8').read())
    return '[%s]'%';\n '.join(message(m) for m in get(y,'messages'))
def lists(fn):
    if not fn: return 'empty_predef'
    y=miniyaml.load(open(os.path.join(BASE,fn),encoding='utf-8').read())
    ss='; '.join('(%s,%s)'%(cs(scal(k)),cs(scal(v))) for k,v in (get(y,'predefinedStrings') or []))
    ll='; '.join('(%s,[%s])'%(cs(scal(k)),'; '.join(cs(scal(x)) for x in (v or []))) for k,v in (get(y,'predefinedLists') or []))
    return '(mkPredef [%s] [%s] [])'%(ss,ll)
def tojson(v):
    if isinstance(v,Map): return {scal(k):tojson(x) for k,x in v}
    if isinstance(v,list): return [tojson(x) for x in v]
    if isinstance(v,Plain): return str(v)
    return v
def raw(fn):
    t=open(os.path.join(BASE,fn),encoding='utf-8').read()
    if fn.endswith('.yaml'): t=json.dumps(tojson(miniyaml.load(t)),sort_keys=True,separators=(',',':'))
    return cs(t)
names={};data=[]
def san(fn):
    s=re.sub(r'^(\.\./)+files/','',fn); s=re.sub(r'\.(yaml|json)$','',s)
    return re.sub(r'\W','_',s)
def D(kind,fn,mk,ty):
    fn=os.path.relpath(os.path.normpath(os.path.join(BASE,fn)),BASE)
    k=(kind,fn)
    if k not in names:
        body=mk(fn); n=kind+'_'+san(fn); assert n not in names.values(),n; names[k]=n
        data.append('(** %s *)\nDefinition %s : %s :=\n %s.'%(fn.replace('../',''),n,ty,body))
    return names[k]
R=lambda fn:D('r',fn,rules,'list written')
Ms=lambda fn:D('m',fn,messages,'list message')
Raw=lambda fn:D('d',fn,raw,'string')
def P(fn): return D('p',fn,lists,'predef') if fn else 'empty_predef'
DEC={'DEFAULT':'0','ALLOW':'1','ALERT':'2','BLOCK':'3'}
groups=[] # (name, file, [(line,term)])
def func_of(lines):
    cur=None;out={}
    for no,l in enumerate(lines,1):
        m=re.match(r'func (Test\w+)',l)
        if m: cur=m[1]
        out[no]=cur
    return out
acc={}
def add(f,fun,line,term): acc.setdefault((f,fun),[]).append((line,term))
# check_test.go
src=open(BASE+'check_test.go').read()
src=re.sub(r'/\*.*?\*/',lambda m:'\n'*m[0].count('\n'),src,flags=re.S)
lines=src.split('\n'); fo=func_of(lines)
end=next(i for i,l in enumerate(lines) if l.startswith('func test_CheckMessages('))
cur=None; val={}; nassert=0; un=[]
tests=[]
for no,l in enumerate(lines[:end],1):
    l=l.strip()
    if l.startswith('//'): continue
    if l.startswith('So('): l=re.sub(r'\)\s*//.*$',')',l)
    m=re.match(r'^([\w, ]+?):?=\s*(test_\w+)\((.*)\)\s*(//.*)?$',l)
    if m:
        vs=[v.strip() for v in m[1].split(',')]; args=re.findall(r'"([^"]*)"',m[3])
        t=dict(line=no,fn=m[2],args=args,exp=[],vars=vs,raw=m[3]); tests.append(t)
        for v in vs:
            if v!='_': val[v]=t
        cur=t; continue
    m=re.match(r'^(\w+)\s*:?=\s*extraData\[0\]\[(\d+)\]\["(\w+)"\]\.\(string\)$',l)
    if m: val[m[1]]=('extra',val['extraData'],m[2],m[3]); continue
    m=re.match(r'^(\w+)\s*:?=\s*rules\.Rules\[0\]\.preparedRule\.Conditions\.ConditionsTree\.String\(\)$',l)
    if m: val[m[1]]=('tree',val['rules']); continue
    m=re.search(r'(?:json\.Marshal|e\.Encode)\(extraData\[0\]\[(\d+)\]\["(\w+)"\]\)',l)
    if m: val['val']=('json',val['extraData'],m[1],m[2]); continue
    m=re.match(r'^val2\s*:?=\s*`(.*)`$',l)
    if m: val2=m[1]; continue
    if l=='So(val, ShouldEqual, val2)' and val['val'][0]=='json':
        t=val['val']; t[1]['exp'].append('ReturnsJson %s %s %s'%(t[2],cs(t[3]),cs(val2))); nassert+=1; continue
    m=re.match(r'^errStr\s*:?=\s*fmt.Sprintf\("%v", err\)$',l)
    if m: val['errStr']=('err',val['err']) if isinstance(val.get('err'),dict) else None; continue
    m=re.match(r'^So\((.*)\)\s*(//.*)?$',l)
    if not m: continue
    e=m[1]; v=re.match(r'^(?:len\()?(\w+)',e)[1]; t=val.get(v)
    x=re.match(r'^(\w+), ShouldEqual, "(.*)"$',e)
    if isinstance(t,tuple) and x:
        if t[0]=='extra': t[1]['exp'].append('Returns %s %s %s'%(t[2],cs(t[3]),cs(x[2])))
        elif t[0]=='tree': t[1]['exp'].append('Tree %s'%cs(x[2]))
        else: t[1]['exp'].append('Fails')
        nassert+=1; continue
    if not isinstance(t,dict): un.append((no,l)); continue
    E=t['exp']
    x=re.match(r'^results\w*\[(\d+)\], ShouldEqual, (\w+)$',e)
    y=re.match(r'^results\w*\[(\d+)\]\[(\d+)\], ShouldEqual, (\w+)$',e)
    z=re.match(r'^isvalid\w*, ShouldEqual, (\w+)$',e)
    w=re.match(r'^len\(extraData\[0\](?:\[(\d+)\])?\), ShouldEqual, (\d+)$',e)
    u=re.match(r'^extraData\[0\]\[(\d+)\]\["(\w+)"\](?:\.\(string\))?, ShouldEqual, "(.*)"$',e)
    h=re.match(r'^hashes\[(\d)\], Should(Not)?Equal, hashes\[(\d)\]$',e)
    p=re.match(r'^rules\.Rules\[0\]\.preparedRule\.(Sender|Receiver)\.\w+, ShouldEqual, "(.*)"$',e)
    if x: E.append('Decides %s %s'%(x[1],DEC[x[2]]))
    elif y: E.append('Holds %s %s %s'%(y[1],y[2],y[3]))
    elif z: E.append('Valid %s'%z[1])
    elif w: E.append('Reports %s'%w[2] if w[1] is None else 'ReportsAt %s %s'%(w[1],w[2]))
    elif u: E.append('Returns %s %s %s'%(u[1],cs(u[2]),cs(u[3])))
    elif h: E.append('%s %s %s'%('Differ' if h[2] else 'Same',h[1],h[3]))
    elif p: E.append('%s %s'%(p[1],cs(p[2])))
    elif e.startswith('err, '):
        E.append('Works' if e.endswith(('nil','BeNil')) and 'Not' not in e else 'Fails')
    else: un.append((no,l)); continue
    nassert+=1
for u in un: print('unhandled',u)
def ex(E): return '[%s]'%'; '.join(E)
WL=['../files/lists/predefined_list_workload%s.yaml'%q for q in ['','2','3','4']]
for t in tests:
    f,a=t['fn'],t['args']
    if not t['exp']: print('no expectation',t['line']); continue
    try:
        if f=='test_CheckMessages': ts=['messages_test empty_predef %s %s'%(R(a[0]),Ms(a[1]))]
        elif f=='test_CheckMessagesWithPredefinedStrings': ts=['messages_test %s %s %s'%(P(a[2]),R(a[0]),Ms(a[1]))]
        elif f in('test_CheckMessagesWithRawData','test_CheckMessagesWithRawDataWithReturnValue'): ts=['document_test empty_predef %s %s %s'%(R(a[0]),Ms(a[1]),Raw(a[2]))]
        elif f=='test_CheckMessagesWithRawDataAndPredefinedStrings':
            if len(a)==3 and 'zooz' in t['raw']:
                ts=['document_test %s %s %s %s'%(P(a[2]),R(a[0]),Ms(a[1]),Raw('../files/raw_json_data/predefined_strings/json_raw_zooz_%d.json'%i)) for i in range(1,20)]
            else: ts=['document_test %s %s %s %s'%(P(q),R(a[0]),Ms(a[1]),Raw(a[2])) for q in (WL if len(a)==3 else [a[3]])]
        elif f=='test_ConditionsWithJsonRaw': ts=['conditions_test %s %s %s'%(R(a[0]),Ms(a[1]),Raw(a[2]))]
        elif f=='test_RuleValidity': ts=['validity_test %s'%R(a[0])]
        elif f=='test_MD5Hash': ts=['hash_test %s'%R(a[0])]
        else: raise Exception(f)
    except YErr as e: print('yaml error',t['line'],a[0],e,t['exp']); continue
    for s in ts: add('check_test.go',fo[t['line']],t['line'],'%s %s'%(s,ex(t['exp'])))
# conditions_tree_test.go
src=open(BASE+'conditions_tree_test.go').read(); lines=src.split('\n'); fo=func_of(lines)
F='conditions_tree_test.go'; fn=None; condString=exp=None; hs={}
for no,l in enumerate(lines,1):
    l=l.strip()
    if l.startswith('//'): continue
    if l.startswith('func compareJson'): break
    m=re.match(r'rules, err :?= YamlReadRulesFromFile\("([^"]*)"\)',l)
    if m: fn=m[1]; continue
    m=re.match(r'(condString|condStringExpected) :?= "(.*)"$',l)
    if m: condString=m[2]; continue
    if 'ShouldEqual, condString' in l and fn: add(F,fo[no],no,'shown_test %s %s'%(R(fn),cs(condString)))
    elif l.startswith('So(err, ShouldEqual, nil)') and fn and fo[no]!='TestConditionsTree': add(F,fo[no],no,'loads %s'%R(fn))
    elif (l.startswith('So(err, ShouldNotEqual, nil)') or 'So(errStr, ShouldEqual' in l) and fn:
        try: add(F,fo[no],no,'negb (loads %s)'%R(fn))
        except YErr as e: print('yaml error',no,fn)
    elif 'ConditionsTree,ShouldNotEqual,nil' in l: add(F,fo[no],no,'has_tree %s'%R(fn))
    m=re.match(r'(hash\w+):=compareJsonAndYamlHash\("([^"]*)"\)',l)
    if m: hs[m[1]]=m[2]; add(F,fo[no],no,'yaml_and_json %s'%R(m[2]))
    m=re.match(r'So\((hash\w+),ShouldEqual,(hash\w+)\)',l)
    if m and m[1] in hs: add(F,fo[no],no,'same_hash %s %s'%(R(hs[m[1]]),R(hs[m[2]])))
ct=open(BASE+'check_test.go').read()
for nm in ('dataJson','dataJson2'):
    m=re.search(nm+r' := `([^`]*)`',ct); add('check_test.go','TestMaplEngineDebugging',ct[:m.start()].count('\n')+1,'text_loads %s'%cs(m[1].replace('\t',' ')))
ut=open(BASE+'unmarshal_test.go').read()
for m in re.finditer(r'maplRuleJson2? :?= `([^`]*)`',ut):
    c=json.dumps(json.loads(m[1])['conditions'],separators=(',',':')); add('unmarshal_test.go','TestJsonUnmarhshal',ut[:m.start()].count('\n')+1,'text_loads %s'%cs(c))
# unmarshal_test.go
F='unmarshal_test.go'
root='/repo/files/rules'
allf=sorted(os.path.relpath(os.path.join(d,f),BASE) for d,_,fs in os.walk(root) for f in fs)
for f in allf:
    if 'predefined_strings' in os.path.dirname(f) or 'invalid_rule' in f: continue
    add(F,'TestJsonUnmarhshal',0,'copies_test true empty_predef %s'%R(f))
for f,s in re.findall(r'testUnmarshalForOneFileWithPredefinedStrings\("([^"]*)", "([^"]*)"\)',open(BASE+F).read())+[('../files/rules/predefined_strings/rules_with_condition_translation_list.yaml',q) for q in WL[:3]]:
    add(F,'TestJsonUnmarhshalWithPredefinedStrings',0,'copies_test false %s %s'%(P(s),R(f)))
# mongo
F='mongo_plugin_test.go'
src=open('/repo/mongo_plugin/'+F).read(); pend=None; lines=src.split('\n'); fo=func_of(lines)
for no,l in enumerate(lines,1):
    m=re.search(r'test_plugin\("([^"]*)", "([^"]*)", "([^"]*)"\)',l)
    if m: pend=m.groups(); continue
    if 'So(' in l and pend:
        a='../mongo_plugin/'+pend[0]; b='../mongo_plugin/'+pend[1]
        m=re.search(r'So\(results\[0\], ShouldEqual, (\w+)\)',l)
        if m: add(F,fo[no],no,'query_test %s %s %s %s'%(cs(pend[2]).replace('%string',''),Raw(b),R(a),m[1]))
        else: add(F,fo[no],no,'no_query %s %s'%(cs(pend[2]).replace('%string',''),R(a)))
        pend=None
mv=set()
for mr in re.findall(r'"(\.\./files/rules/[^"]*/)"',src[src.index('func TestMongoPluginValidationAllRules'):src.index('func testValidationOneFile')]):
    for f in allf:
        if f.startswith(mr) and 'invalid_rule' not in f: mv.add(f)
for f in sorted(mv): add(F,'TestMongoPluginValidationAllRules',0,'queries_test %s'%R(f))
q='("%s", "%s")'
add('string_utils_test.go','TestRemoveDotQuotes',0,'quotes_test [("$.metadata.labels.foo", "$.metadata.labels.foo"); ("$.metadata.labels.\'foo\'", "$.metadata.labels.foo"); ("$.metadata.labels.""foo""", "$.metadata.labels.foo"); ("$.metadata.labels.[""foo""]", "$.metadata.labels.[""foo""]")]')
n=sum(len(v) for v in acc.values()); print('calls',n,'assertions in check_test',nassert)
H='(** %s *)\nFrom Coq Require Import List String Ascii Bool Arith ZArith.\nFrom Verif Require Import %s.\nImport ListNotations.\nOpen Scope string_scope.\n\n'
dt='\n\n'.join(data).replace('%string','')
open('/verif/rocq/theories/Repo_data.v','w').write(H%('The rule, message, list and document files under /repo/files that the tests use, as the YAML and JSON\n    libraries read them.  Generated by tools/repo_tests.py; characters outside ASCII are written as question marks.','Base GoStr GoFloat Types Repo_harness')+dt+'\n')
o=[]
for (f,fun),v in acc.items():
    o.append('(** %s *)\nGoal failing [ (* %s *)\n%s] = [].\nProof. vm_compute. reflexivity. Abort.'%(('mongo_plugin/' if f.startswith('mongo') else 'MAPL_engine/')+f,fun,';\n'.join('  (%d%%Z, %s)'%(l,t.replace('%string','')) for l,t in v)))
open('/verif/rocq/theories/Repo_tests.v','w').write(H%("The assertions of the repository's own tests, with the line of the call, evaluated on the model over\n    the reference library.  These are tests of the model, not theorems, and\n    nothing is kept of them: a goal that fails stops the build.  Generated by tools/repo_tests.py.",'Base GoStr GoFloat Types Repo_harness Repo_data')+'\n\n'.join(o)+'\n')
