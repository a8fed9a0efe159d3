#!/usr/bin/env python3
"""Write rocq/theories/AsmBlocks.v from the output of extract_asm.py: gen_blocks.py <little.json> <big.json> <aix.json> <fences.json>.
The last is extract_asm.py's output for ops_gcc_ppc_common.hpp and fence_arch_ops_gcc_*.hpp.
Equal lines and operands are written once."""
import json,re,sys
little,big,aix,fences=[json.load(open(f)) for f in sys.argv[1:5]]
ARCH={'alpha':'Alpha','ppc':'PowerPC','arm':'Arm','aarch32':'AArch32','aarch64':'AArch64','sparc':'Sparc','x86':'X86'}
lines={};opds={};out=[]
def q(s): assert '"' not in s; return '"'+s+'"'
def line(s):
    if s not in lines: lines[s]='l%d'%len(lines)
    return lines[s]
def opd(o):
    k=tuple(o)
    if k not in opds: opds[k]='o%d'%len(opds)
    return opds[k]
def size(b):
    m=re.search(r'(\d+)u',b['struct'])
    v=int(m.group(1))*8 if m else {'gcc_dcas_x86':64,'gcc_dcas_x86_64':128,'gcc_sparc_cas32':32,'gcc_sparc_cas64':64}.get(b['struct'],0)
    m=re.search(r'core_arch_operations< (\d+)u',b['base']) if not 'gcc_x86' in b['base'] else None
    w=int(m.group(1))*8 if m else v
    sg='true' in b['struct'].split('<')[-1].split(',')[1:2][0] if w!=v else False
    return w,v,sg
count={}
def letters(b): # the arguments of BOOST_ATOMIC_DETAIL_AARCH{32,64}_MO_INSN
    for x in b['inner']:
        if x in ('r,r','a,r','r,l','a,l',',','a,',',l'):
            l,s=x.split(','); return '(Some (%s, %s))'%(str(l=='a').lower(),str(s=='l').lower())
    return 'None'
def emit(b,be,out=out):
    a=ARCH[b['file'].split('gcc_')[1][:-4].replace('_common','')]
    w,v,sg=size(b)
    t='Blk %s %s %d %s %d %d %s %s [%s] [%s] [%s] [%s] %s'%(a,q(b['file']),b['line'],q(b['func']),w,v,str(bool(sg)).lower(),str(be).lower(),
      '; '.join(line(x) for x in b['text']),'; '.join(opd(o) for o in b['outs']),'; '.join(opd(o) for o in b['ins']),'; '.join(q(c) for c in b['clob']),letters(b))
    out.append((a,b,be,t))
for i,b in enumerate(little):
    emit(b,False)
    w,_,_=size(b)
    arch=ARCH[b['file'].split('gcc_')[1][:-4]]
    if (arch in ('Arm','AArch32') and w==64) or (arch=='AArch64' and w==128): emit(big[i],True)
    if arch=='PowerPC' and aix[i]['text']!=b['text']: emit(aix[i],False)
fout=[]
for b in fences: emit(b,False,fout)
print('''(** * The assembler blocks of the library.

    Written by tools/gen_blocks.py from /repo/include/boost/atomic/detail, after macro expansion: every asm statement of
    core_arch_ops_gcc_{alpha,arm,ppc,sparc,x86,aarch32,aarch64}.hpp and extra_ops_gcc_{arm,ppc,x86,aarch32,aarch64}.hpp, for
    every branch of the preprocessor conditions inside it and every memory order that changes its text; for values
    of two registers on ARM in both byte orders; for PowerPC also the AIX version of jumps.  Each block cites its file
    and line.  Not included: the Thumb-1 versions of the ARM blocks, which switch to ARM code first. *)
From Coq Require Import ZArith List String.
From Verif Require Import AsmText.
Import ListNotations.
Open Scope string_scope.
Open Scope Z_scope.
''')
for s,n in lines.items(): print('Definition %s := %s.'%(n,q(s)))
for o,n in opds.items(): print('Definition %s := Opd %s.'%(n,' '.join(q(x) for x in o)))
names={}
for a in ARCH.values():
    bl=[x for x in out if x[0]==a]
    nm='blocks_'+a.lower(); names[a]=nm
    print('\nDefinition %s : list block := ['%nm)
    print(';\n'.join(x[3] for x in bl)+'].')
    print(a,len(bl),file=sys.stderr)
print('\nDefinition blocks : list block := '+' ++ '.join(names.values())+'.')
print('\n(** the asm statements of the fence functions: ops_gcc_ppc_common.hpp and fence_arch_ops_gcc_*.hpp *)')
print('Definition fences : list block := [\n'+';\n'.join(x[3] for x in fout)+'].')
