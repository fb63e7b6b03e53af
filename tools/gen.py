#!/usr/bin/env python3
"""Writes theories/Properties<k>.v from a list of (theorem, lemma, comment) entries: copies the
lemma's statement, quantified over the arithmetic, and closes it with the lemma."""
import re,glob,sys
TH='/verif/rocq/theories/'
src={}
def load():
    for f in glob.glob(TH+'*.v'):
        if 'Properties' in f: continue
        s=open(f).read()
        for m in re.finditer(r'^(Theorem|Lemma|Example)\s+([A-Za-z0-9_\']+)(.*?)\.\s*\nProof',s,re.S|re.M):
            src.setdefault(m.group(2),(f.split('/')[-1][:-2],m.group(3)))
def split(txt):
    """binders, statement"""
    d=0
    for i,c in enumerate(txt):
        if c in '([{': d+=1
        elif c in ')]}': d-=1
        elif c==':' and d==0: return txt[:i].strip(), txt[i+1:].strip()
    raise Exception(txt)
import subprocess
_law={}
def takes_law(lemma):
    if not _law:
        mods=sorted({f for f,_ in src.values()})
        import os
        mods=[m for m in mods if os.path.exists(TH+m+'.vo')]
        t='From Verif Require Import %s.\n'%' '.join(mods)
        for l,(f,_) in src.items():
            if f in mods: t+='Check @%s.%s.\n'%(f,l)
        open('/tmp/gen_probe.v','w').write(t)
        r=subprocess.run(['coqc','-Q','/verif/rocq/theories','Verif','/tmp/gen_probe.v'],capture_output=True,text=True).stdout
        for blk in re.split(r'\n(?=\S)',r):
            n=re.match(r'@?(?:[A-Za-z0-9_]+\.)*([A-Za-z0-9_\']+)',blk).group(1)
            _law[n]='NumLaws' in blk
    return _law[lemma]
def thm(name,lemma,comment=None,law=True,pre='',args='',fixed=False):
    """law: lemma takes L; pre: extra binders placed after L (section variables), args: passed."""
    f,t=src[lemma]; b,s=split(t)
    if not fixed: law=takes_law(lemma)
    b=b.replace('{N : Num}','').replace('(L : NumLaws N)','').strip()
    out=''
    if comment: out+='(** '+comment+' *)\n'
    if fixed:
        q=(' '.join(x for x in [pre,b] if x)).strip()
        q=('forall '+q+',\n  ') if q else ''
        out+='Theorem %s : %s%s.\nProof. exact %s. Qed.\n'%(name,q,s,('(%s)'%(lemma+' '+args)) if args else '@'+lemma if '{' in b else lemma)
    else:
        hd='forall (N : Num) (L : NumLaws N)' if law else 'forall (N : Num)'
        if pre: hd+=' '+pre
        if 'mat N' not in b: b=re.sub(r'(?<![(\w])o\b(?! :)','(o : opts N)',b,1)
        if b: hd+=' '+b
        vs=' '.join(re.findall(r'\(([A-Za-z ]+?) :',pre)) if pre else ''
        body='(fun N %s%s => %s%s%s)'%('L ' if law else '',vs,('@'+lemma+' N') ,' L' if law else '',(' '+args) if args else '')
        out+='Theorem %s : %s,\n  %s.\nProof. exact %s. Qed.\n'%(name,hd,s,body)
    out+='Print Assumptions %s.\n'%name
    return out
def ex(name,lemma,comment=None,kw='Example'):
    f,t=src[lemma]; b,s=split(t)
    assert not b,(name,b)
    return (('(** '+comment+' *)\n') if comment else '')+kw+' %s : %s.\nProof. exact %s. Qed.\n'%(name,s,lemma)
def write(k,title,imports,items,pre=''):
    o='(** Properties%s.v - %s\n\n    Only theorem statements, each closed by a lemma proved elsewhere, and concrete cases\n    that meet their hypotheses.  See Properties1.v for the arithmetic [N] and [NumLaws]. *)\n'%(k,title)
    o+=pre+'From Verif Require Import Base Num StepPattern Window Core Backtrack Dtw Spec Api Tables Vocab Terms.\nFrom Verif Require Import NumQ NumQLaws NumF NumFLaws.\n'
    o+='From Verif Require Import %s.\nOpen Scope string_scope.\nOpen Scope list_scope.\nOpen Scope nat_scope.\n\n'%imports
    o+='\n'.join(items)
    open(TH+'Properties%s.v'%k,'w').write(o)
load()
