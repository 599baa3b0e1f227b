#!/usr/bin/env python3
"""Writes SpecPrograms.v and LemUniform*.v from the signatures of the kernels and
the Fortran subroutines."""
import re
TH='/verif/rocq/theories/'
SC={'alpha':'(p 3)','beta':'(p 4)','dir_factor':'(p 5)','neu_factor':'(p 6)','dirfactor':'(p 5)','neufactor':'(p 6)',
    'a':'(p 3)','b':'(p 4)','w':'(p 5)'}
def sigs(f):
    s=open(TH+f+'.v').read()
    res=[]
    for m in re.finditer(r'\n  Definition (\w+)(.*?):=',s,re.S):
        name,sig=m.group(1),' '.join(m.group(2).split())
        groups=re.findall(r"\(([\w' ]+?) : ([^()]*(?:\([^()]*\))?[^()]*)\)",sig)
        bind,app,ok=[],[],True
        for ns,t in groups:
            if t=='mem S': continue
            for n in ns.split():
                v=n.rstrip('_')
                if v in ('type',): v='type'
                if t=='Z -> S': app.append('p')
                elif t=='S':
                    if n not in SC: ok=False; break
                    app.append(SC[n])
                elif t in ('Z','ptr','Z -> Z'):
                    bind.append((v,t)); app.append(v)
                else: ok=False
        ret=re.sub(r"\(([\w' ]+?) : ([^()]*(?:\([^()]*\))?[^()]*)\)",'',sig).strip()
        if ret not in (': option (mem S)',': mem S -> option (mem S)',''): ok=False
        if name in ('homog_coeff','coarse_of'): ok=False
        if ok: res.append((name,bind,app))
        else: print('skipped',f,name)
    return res
LIB=['KernelsFlux','KernelsApply','KernelsCopy','KernelsDot','KernelsBC','KernelsStencil']
REF=['FortranFlux','FortranApply','FortranCopy','FortranBC','FortranHomog','FortranStencil1','FortranStencil2','FortranStencil3','FortranSmooth']
S={f:sigs(f) for f in LIB+REF}
def binders(b):
    out=[];i=0
    while i<len(b):
        j=i
        while j<len(b) and b[j][1]==b[i][1]: j+=1
        out.append('('+' '.join(x[0] for x in b[i:j])+' : '+b[i][1]+')'); i=j
    return ' '.join(out)
def term(n,app): return '(fun S p => @%s S %s)'%(n,' '.join(app))
def ind(name,files):
    o='Inductive %s : prog -> Prop :=\n'%name
    for f in files:
        o+='(* %s.v *)\n'%f
        for n,b,a in S[f]:
            o+='| L_%s %s :\n    %s %s\n'%(n,binders(b),name,term(n,a))
    return o.rstrip()+'.\n'
spec='''(** * The kernels and the reference subroutines as programs

    Generated by tools/gen_uniform.py.  The scalar parameters of a kernel are the
    values of one function [p]: [dx] is [p] itself, so that its three entries are
    [p 0], [p 1] and [p 2]; [alpha] (or [a]) is [p 3], [beta] (or [b]) is [p 4],
    and [dir_factor] (or the weight of a smoother) and [neu_factor] are [p 5] and
    [p 6].  Integers and addresses are fixed. *)

From Verif Require Import Base SpecRel %s.
Import ListNotations.
Open Scope Z_scope.

(** The kernels of src/cuda. *)
%s
(** The subroutines of m4. *)
%s'''%(' '.join(LIB+REF),ind('kernel',LIB),ind('subroutine',REF))
open(TH+'SpecPrograms.v','w').write(spec)
PARTS=[('1',['KernelsFlux','KernelsApply','KernelsCopy','KernelsDot'],'u_kernel'),('2',['KernelsBC'],'u_kernel'),('3',['KernelsStencil'],'u_kernel'),
 ('4',['FortranFlux','FortranApply','FortranCopy','FortranHomog'],'u_sub'),('5',['FortranBC'],'u_sub'),('6',['FortranStencil1','FortranStencil2','FortranStencil3'],'u_sub'),('7',['FortranSmooth'],'u_sub')]
for k,fs,tac in PARTS:
    o='''(** * %s: uniform (generated by tools/gen_uniform.py) *)

From Verif Require Import Base ModelBounds ModelIters ModelSpan ModelProxy SpecRel LemRel.
From Verif Require Import FortranBase FortranLoops LemRelF LemRelTac %s.
Import ListNotations.
Open Scope Z_scope.

'''%(', '.join(fs),' '.join(fs))
    for f in fs:
        for n,b,a in S[f]:
            extra=''
            if n=='cellsethomogenousbc2d': extra=', homog_coeff'
            o+='Lemma %s_uniform %s :\n  uniform %s.\nProof. %s. unfold %s%s. u_go. Qed.\n\n'%(n,binders(b),term(n,a),tac,n,extra)
    open(TH+'LemUniform%s.v'%k,'w').write(o.rstrip()+'\n')
print({f:len(v) for f,v in S.items()})

# ---- pairs of a kernel and its reference subroutine, from the theorems C36-C41
import sys
SC2={'dx':'p','alpha':'(p 3)','beta':'(p 4)','dirf':'(p 5)','neuf':'(p 6)'}
refs=[]
for f in ['PropertiesFlux','PropertiesCopy','PropertiesBC','PropertiesStencilKernels']:
    s=open(TH+f+'.v').read()
    for m in re.finditer(r'\nTheorem (C(?:36|37|38|39|41)_\w+) : (.*?)\.\nProof\. exact @(\w+)\.',s,re.S):
        name,st,lem=m.group(1),' '.join(m.group(2).split()),m.group(3)
        g=re.match(r'forall \(S : Scalar\)(, field_laws S -> forall)? ([\w ]+?) \(m : mem S\), (.*)$',st)
        if not g or 'refuted' in name: print('no pair',name); continue
        law,names,body=bool(g.group(1)),g.group(2).split(),g.group(3)
        parts=re.split(r' -> (?![^(]*\))',body)
        eq=parts[-1]
        hyps=body[:len(body)-len(eq)]
        e=re.match(r'(\w+) ([\w ]+) m = (\w+) ([\w ]+) m$',eq)
        if not e: print('no pair',name,eq); continue
        sub=lambda a:' '.join(SC2.get(x,x) for x in a.split())
        allk=[n for f2 in LIB for n,_,_ in S[f2]]; allf=[n for f2 in REF for n,_,_ in S[f2]]
        assert e.group(1) in allk and e.group(3) in allf,(name,e.group(1),e.group(3))
        bn=[x for x in names if x not in SC2]
        refs.append((name,bn,hyps,e.group(1),sub(e.group(2)),e.group(3),sub(e.group(4)),lem,law,names))
print(len(refs),'pairs')
def wrap(s,ind,w=110):
    out=[];line=ind
    for t in s.split(' '):
        if len(line)+len(t)+1>w and line.strip(): out.append(line.rstrip()); line=ind
        line+=t+' '
    out.append(line.rstrip()); return '\n'.join(out)
o='''(** * A kernel and the Fortran subroutine it replaces

    Generated by tools/gen_uniform.py from the statements of C36, C37, C38, C39 and
    C41: the pairs, and the conditions under which their results are equal in exact
    arithmetic with grid spacings other than 0.  The scalar parameters are as in
    SpecPrograms.v. *)

From Verif Require Import Base SpecAssign SpecRel SpecKernel KernelsFlux KernelsApply KernelsCopy KernelsBC KernelsStencil
  FortranFlux FortranApply FortranCopy FortranBC FortranHomog FortranStencil1 FortranStencil2 FortranStencil3.
Import ListNotations.
Open Scope Z_scope.

Inductive reference : prog -> prog -> Prop :=
'''
for name,bn,hyps,k,ka,f,fa,lem,law,names in refs:
    o+='| R%s %s :\n'%(name,' '.join(bn))
    hyps=hyps.replace('dx dir <> lit 0','0 <= dir <= 2')
    if hyps: o+='\n'.join('    '+h+' ->' for h in re.split(r' -> (?![^(]*\))',hyps.rstrip()[:-3]) if not h.startswith('dx '))+'\n'
    o+='    reference (fun S p => @%s S %s)\n              (fun S p => @%s S %s)\n'%(k,ka,f,fa)
open(TH+'SpecReference.v','w').write(o.rstrip()+'.\n')
o='''(** * Every program is uniform (generated by tools/gen_uniform.py) *)

From Verif Require Import Base SpecRel SpecPrograms SpecReference Instances LemUniform1 LemUniform2 LemUniform3 LemUniform4
  LemUniform5 LemUniform6 LemUniform7 LemFlux LemApply LemCopy LemBC LemHomog LemStencil LemStencil2 LemStencil3.
From Verif Require %s.
Import ListNotations.
Open Scope Z_scope.

Lemma kernel_uniform K : kernel K -> uniform K.
Proof.
  intros H. destruct H.
%s
Qed.

Lemma subroutine_uniform K : subroutine K -> uniform K.
Proof.
  intros H. destruct H.
%s
Qed.

Lemma reference_programs K F : reference K F -> kernel K /\\ subroutine F.
Proof.
  intros H. destruct H.
%s
Qed.

Lemma reference_exact K F : reference K F -> forall S, field_laws S -> forall p (m : mem S),
  (forall d, 0 <= d <= 2 -> p d <> lit 0) -> K S p m = F S p m.
Proof.
  intros H S L p m N. destruct H.
%s
Qed.
'''%('PropertiesFlux PropertiesCopy PropertiesBC PropertiesStencilKernels',
 '\n'.join('  - apply %s_uniform.'%n for f2 in LIB for n,_,_ in S[f2]),
 '\n'.join('  - apply %s_uniform.'%n for f2 in REF for n,_,_ in S[f2]),
 '\n'.join('  - split; [apply L_%s|apply L_%s].'%(r[3],r[5]) for r in refs),
 '\n'.join('  - apply @%s; try assumption; apply N; lia.'%r[7] for r in refs))
o=o.replace("From Verif Require PropertiesFlux PropertiesCopy PropertiesBC PropertiesStencilKernels.\n","")
open(TH+'LemUniform.v','w').write(o)
