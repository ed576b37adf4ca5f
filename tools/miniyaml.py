"""A YAML reader for the files of /repo, enough for repo_tests.py."""
import re, json
class YErr(Exception): pass
def strip_comment(l):
    out='';q=None;i=0
    while i<len(l):
        c=l[i]
        if q:
            out+=c
            if q=='"' and c=='\\' and i+1<len(l): out+=l[i+1]; i+=1
            elif c==q: q=None
        elif c in '"\'' and (out.strip()=='' or out.rstrip()[-1] in ':-[,{'): q=c; out+=c
        elif c=='#' and (i==0 or l[i-1] in ' \t'): break
        else: out+=c
        i+=1
    return out.rstrip()
def scalar(s):
    s=s.strip()
    if s.startswith('"'):
        m=re.match(r'^"((?:[^"\\]|\\.)*)"$',s)
        if not m: raise YErr('bad dq '+s)
        return re.sub(r'\\(.)',lambda m:{'n':'\n','t':'\t'}.get(m[1],m[1]),m[1])
    if s.startswith("'"):
        if not s.endswith("'"): raise YErr('bad sq '+s)
        return s[1:-1].replace("''","'")
    if s in('','~','null','Null','NULL'): return None
    if s in('true','True','TRUE','yes','Yes','on','On'): return True
    if s in('false','False','FALSE','no','No','off','Off'): return False
    if re.match(r'^[-+]?[0-9]+$',s): return int(s)
    if re.match(r'^[-+]?([0-9]*\.[0-9]+|[0-9]+\.)([eE][-+]?[0-9]+)?$',s) or re.match(r'^[-+]?[0-9]+[eE][-+]?[0-9]+$',s): return float(s)
    if s.startswith('[') or s.startswith('{'):
        v,r=flow(s); 
        if r.strip(): raise YErr('flow rest '+r)
        return v
    return Plain(s)
class Plain(str): pass
def flow(s):
    s=s.lstrip()
    if s[0]=='[':
        s=s[1:].lstrip();out=[]
        while True:
            if s[0]==']': return out,s[1:]
            v,s=flow(s); out.append(v); s=s.lstrip()
            if s[0]==',': s=s[1:].lstrip()
    if s[0]=='{':
        s=s[1:].lstrip();out=[]
        while True:
            if s[0]=='}': return Map(out),s[1:]
            k,s=flow(s); s=s.lstrip()
            if s[0]!=':': raise YErr('flow map')
            v,s=flow(s[1:]); out.append((k,v)); s=s.lstrip()
            if s[0]==',': s=s[1:].lstrip()
    if s[0] in '"\'':
        m=re.match(r'^"(?:[^"\\]|\\.)*"|^\'(?:[^\']|\'\')*\'',s)
        return scalar(m[0]),s[m.end():]
    m=re.match(r'^[^,\[\]{}:]+(?::[^ ,\]}][^,\[\]{}:]*)*',s)
    return scalar(m[0]),s[m.end():]
class Map(list): pass
def key_split(s):
    if s[:1] in '"\'':
        m=re.match(r'^("(?:[^"\\]|\\.)*"|\'(?:[^\']|\'\')*\')\s*:(?:\s+|$)(.*)$',s)
        if m: return scalar(m[1]),m[2]
        return None
    if s[:1] in '[{': return None
    m=re.match(r'^([^#]*?)\s*:(?:\s+(.*)|)$',s)
    if m: return scalar(m[1]),(m[2] or '')
    return None
def load(text):
    if text.startswith('﻿'): text=text[1:]
    lines=[]
    for l in text.replace('\r\n','\n').split('\n'):
        if l.strip()=='---': continue
        t=strip_comment(l)
        if t.strip()=='' : continue
        if '\t' in t[:len(t)-len(t.lstrip())]: raise YErr('tab')
        lines.append([len(t)-len(t.lstrip(' ')),t.strip()])
    p=[0]
    def block(ind):
        i,t=lines[p[0]]
        if t.startswith('- ') or t=='-':
            out=[]
            while p[0]<len(lines) and lines[p[0]][0]==i and (lines[p[0]][1].startswith('- ') or lines[p[0]][1]=='-'):
                rest=lines[p[0]][1][1:]
                n=len(rest)-len(rest.lstrip())
                rest=rest.strip()
                if rest=='':
                    p[0]+=1
                    if p[0]<len(lines) and lines[p[0]][0]>i: out.append(block(lines[p[0]][0]))
                    else: out.append(None)
                else:
                    lines[p[0]]=[i+1+n,rest]
                    out.append(block(i+1+n))
            if p[0]<len(lines) and lines[p[0]][0]>i: raise YErr('indent after seq %r'%lines[p[0]])
            return out
        ks=key_split(t)
        if ks is None:
            p[0]+=1
            # continuation lines of flow/plain
            while p[0]<len(lines) and lines[p[0]][0]>i-1 and t[:1] in '[{' and t.count('{')+t.count('[')>t.count('}')+t.count(']'):
                t+=' '+lines[p[0]][1]; p[0]+=1
            return scalar(t)
        out=Map(); seen=set()
        while p[0]<len(lines) and lines[p[0]][0]==i:
            ks=key_split(lines[p[0]][1])
            if ks is None: raise YErr('expected key %r'%lines[p[0]])
            k,r=ks
            if str(k) in seen: raise YErr('dup key '+str(k))
            seen.add(str(k))
            p[0]+=1
            if r in('|','>','|-'): raise YErr('block scalar')
            if r=='':
                if p[0]<len(lines) and lines[p[0]][0]>i: v=block(lines[p[0]][0])
                elif p[0]<len(lines) and lines[p[0]][0]==i and (lines[p[0]][1].startswith('- ') or lines[p[0]][1]=='-'): v=block(i)
                else: v=None
            else:
                if r[:1] in '[{':
                    while r.count('{')+r.count('[')>r.count('}')+r.count(']'):
                        r+=' '+lines[p[0]][1]; p[0]+=1
                v=scalar(r)
            out.append((k,v))
        if p[0]<len(lines) and lines[p[0]][0]>i: raise YErr('bad indent %r'%lines[p[0]])
        return out
    v=block(0) if lines else None
    if p[0]<len(lines): raise YErr('leftover %r'%lines[p[0]])
    return v
