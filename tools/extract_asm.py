#!/usr/bin/env python3
"""Extract the assembler blocks of boostorg/atomic: for each block, the file, line, enclosing struct, function,
preprocessor branch inside the block, assembler text, operands and clobbers.  Macros are expanded textually."""
import re, sys, json, os, itertools
D = '/repo/include/boost/atomic/detail/'
FILES = [x for x in sys.argv[1:] if not x.startswith('--')]

PARAM = {  # macros of gcc_{ppc,arm}_asm_common.hpp, ops_gcc_*_common.hpp, config.hpp; LABELS, LITTLE_ENDIAN, not Thumb 1
}

def strip_comments(s):
    out=[];i=0;n=len(s)
    while i<n:
        if s[i]=='"':
            j=i+1
            while s[j]!='"':
                j+=2 if s[j]=='\\' else 1
            out.append(s[i:j+1]); i=j+1
        elif s.startswith('//',i):
            while i<n and s[i]!='\n': i+=1
        elif s.startswith('/*',i):
            j=s.index('*/',i)+2
            out.append('\n'*s.count('\n',i,j)); i=j
        else: out.append(s[i]); i+=1
    return ''.join(out)

def args_of(s,i):
    """s[i]=='(' -> (list of top-level comma separated args, index after ')')"""
    depth=0; cur=''; res=[]; k=i
    while True:
        c=s[k]
        if c=='"':
            j=k+1
            while s[j]!='"': j+=2 if s[j]=='\\' else 1
            cur+=s[k:j+1]; k=j+1; continue
        if c in '([{': 
            depth+=1
            if depth>1: cur+=c
        elif c in ')]}':
            depth-=1
            if depth==0: res.append(cur.strip()); return res,k+1
            cur+=c
        elif c==',' and depth==1: res.append(cur.strip()); cur=''
        else: cur+=c
        k+=1

def subst(body,params,args):
    def f(m):
        t=m.group(0)
        if t[0]=='"': return t
        if t.startswith('#'):
            return '"'+args[params.index(t[1:].strip())].replace('"','\\"')+'"' if t[1:].strip() in params else t
        return args[params.index(t)] if t in params else t
    return re.sub(r'"(?:\\.|[^"\\])*"|#\s*\w+|\w+',f,body)

MODE=dict(endian='big' if '--big' in sys.argv else 'little', aix='--aix' in sys.argv, thumb1='--thumb1' in sys.argv)
def common(s):
    """expand the common macros"""
    def call(s,name,fn):
        while True:
            m=re.search(r'\b'+name+r'\s*\(',s)
            if not m: return s
            a,e=args_of(s,m.end()-1)
            s=s[:m.start()]+fn(*a)+s[e:]
    s=call(s,'BOOST_ATOMIC_DETAIL_PPC_ASM_LABEL',lambda l: (l+' ":\\n\\t"') if not MODE['aix'] else '')
    s=call(s,'BOOST_ATOMIC_DETAIL_PPC_ASM_JUMP',lambda i,l,o: i+' " " '+l+' "\\n\\t"' if not MODE['aix'] else i+' " $" '+o+' "\\n\\t"')
    if MODE['thumb1']:
        s=call(s,'BOOST_ATOMIC_DETAIL_ARM_ASM_START',lambda t:'"adr %s, 8f\\n\\t" "bx %s\\n\\t" "8:\\n\\t"'%(t,t))
        s=call(s,'BOOST_ATOMIC_DETAIL_ARM_ASM_END',lambda t:'"adr %s, 9f + 1\\n\\t" "bx %s\\n\\t" "9:\\n\\t"'%(t,t))
    else:
        s=call(s,'BOOST_ATOMIC_DETAIL_ARM_ASM_START',lambda t:'')
        s=call(s,'BOOST_ATOMIC_DETAIL_ARM_ASM_END',lambda t:'')
    le=MODE['endian']=='little'
    for P in ('ARM','AARCH32'):
        s=call(s,'BOOST_ATOMIC_DETAIL_%s_ASM_ARG_LO'%P,lambda a:'"%'+('' if le else 'H')+a+'"')
        s=call(s,'BOOST_ATOMIC_DETAIL_%s_ASM_ARG_HI'%P,lambda a:'"%'+('H' if le else '')+a+'"')
    s=re.sub(r'\bBOOST_ATOMIC_DETAIL_AARCH64_ASM_ARG_LO\b','"0"' if le else '"1"',s)
    s=re.sub(r'\bBOOST_ATOMIC_DETAIL_AARCH64_ASM_ARG_HI\b','"1"' if le else '"0"',s)
    s=call(s,'BOOST_ATOMIC_DETAIL_ARM_ASM_TMPREG_CONSTRAINT',lambda v:'"=&l" (%s)'%v)
    s=s.replace('BOOST_ATOMIC_DETAIL_ASM_CLOBBER_CC_COMMA','"cc",')
    s=re.sub(r'\bBOOST_ATOMIC_DETAIL_ASM_CLOBBER_CC\b','"cc"',s)
    return s

def strlit(s):
    """concatenate adjacent literals"""
    r=''; pos=0
    for m in re.finditer(r'"((?:\\.|[^"\\])*)"',s):
        assert s[pos:m.start()].strip()=='', ('junk',s[pos:m.start()],s)
        r+=m.group(1); pos=m.end()
    assert s[pos:].strip()=='', ('junk',s[pos:],s)
    return r.replace('\\n','\n').replace('\\t','\t')

def variants(lines):
    """lines of a statement with nested #if -> list of (conditions, text)"""
    def parse(i,inside):
        alts=[[]] # list of chunks: each chunk is str or list of (cond, alts)
        seq=[]
        while i<len(lines):
            l=lines[i].strip()
            if re.match(r'#\s*(if|ifdef|ifndef)\b',l):
                branches=[]; cond=re.sub(r'^#\s*','',l); seen=[]; haselse=False
                while True:
                    body,i=parse(i+1,True)
                    branches.append((cond,body)); 
                    l=lines[i].strip()
                    if re.match(r'#\s*elif',l): cond=re.sub(r'^#\s*','',l)
                    elif re.match(r'#\s*else',l): cond='else of '+branches[0][0]; haselse=True
                    else: break
                if not haselse: branches.append(('not '+branches[0][0],[]))
                seq.append(branches); i+=1
            elif re.match(r'#\s*(elif|else|endif)\b',l) and inside: return seq,i
            else: seq.append(lines[i]); i+=1
        return seq,i
    seq,_=parse(0,False)
    def expand(seq):
        res=[((),'')]
        for x in seq:
            if isinstance(x,str): res=[(c,t+x+'\n') for c,t in res]
            else:
                res=[(c+(cond,)+c2,t+t2) for c,t in res for cond,b in x for c2,t2 in expand(b)]
        return res
    return expand(seq)

def parse_asm(text):
    """text of the parenthesised part, without outer parentheses"""
    text=common(text)
    # split at top-level colons
    parts=[];cur='';depth=0;i=0
    while i<len(text):
        c=text[i]
        if c=='"':
            j=i+1
            while text[j]!='"': j+=2 if text[j]=='\\' else 1
            cur+=text[i:j+1]; i=j+1; continue
        if c in '([{': depth+=1
        if c in ')]}': depth-=1
        if c==':' and depth==0:
            if text[i+1:i+2]==':' : 
                parts.append(cur); cur=''; i+=1; continue
            parts.append(cur); cur=''
        else: cur+=c
        i+=1
    parts.append(cur)
    parts+=['']*(4-len(parts))
    def ops(s):
        if not s.strip(): return []
        a,_=args_of('('+s+')',0)
        r=[]
        for x in a:
            m=re.match(r'(?:\[(\w+)\]\s*)?"([^"]*)"\s*\((.*)\)$',x,re.S)
            assert m,('operand',x)
            r.append((m.group(1) or '',m.group(2),re.sub(r'\s+',' ',m.group(3).strip())))
        return r
    cl=[x.strip().strip('"') for x in parts[3].split(',') if x.strip()]
    return dict(text=[l.strip() for l in re.split(r'[\n]',strlit(parts[0])) if l.strip()],outs=ops(parts[1]),ins=ops(parts[2]),clob=cl)

def blocks(fn):
    src=strip_comments(open(D+fn).read())
    lines=src.split('\n')
    i=0; struct=''; base=''; fstart=0; func=''; macros={}; conds=[]; out=[]; nif=0
    while i<len(lines):
        l=lines[i]
        ls=l.strip()
        if ls.startswith('#'):
            m=re.match(r'#\s*define\s+(\w+)\(([^)]*)\)(.*)$',ls)
            full=[ls]; ln=i+1
            while full[-1].endswith('\\'):
                i+=1; full.append(lines[i].strip())
            if m:
                body='\n'.join(x.rstrip('\\') for x in full); body=body[body.index(')')+1:]
                macros.setdefault(m.group(1),[]).append(([p.strip() for p in m.group(2).split(',')],body,ln,[(c[0],len(c)) for c in conds]))
            elif re.match(r'#\s*undef',ls): macros.pop(ls.split()[1],None)
            elif re.match(r'#\s*if',ls): nif+=1; conds.append([str(nif)+' '+re.sub(r'^#\s*','',ls)])
            elif re.match(r'#\s*elif',ls): conds[-1].append(re.sub(r'^#\s*','',ls))
            elif re.match(r'#\s*else',ls): conds[-1].append('else')
            elif re.match(r'#\s*endif',ls): conds.pop()
            i+=1; continue
        m=re.match(r'(?:struct|class)\s+(.*?)\s*:?$',ls)
        if m: struct=m.group(1); base=lines[i+1].strip() if ls.endswith(':') else ''
        m=re.match(r'static\s+BOOST_FORCEINLINE\s+.*?(\w+)\s*\(',ls)
        if m: func=m.group(1); fstart=i
        def cond(): return [' / '.join(c[-1:]) if len(c)==1 else '%s of %s'%(c[-1],c[0]) for c in conds]
        def types(b,i):
            """C++ type with which each operand's variable is declared in the function"""
            def ty(x):
                r=re.match(r'\w+$',x)
                n=x if r else (re.search(r'(?:^|&|\(|\))\s*(\w+)(?: >> 32u\))?(?:\)?\[\w+\]|\.\w+\[\w+\]|\)?)$',x) or [0,''])[1]
                t=''
                for k in range(fstart,i+1):
                    for m in re.finditer(r'([\w:]+(?:< ?[\w:]+ ?>)?)((?: const| volatile|[&*])*)\s+'+re.escape(n)+r'\s*(?=[=;,)\[]|$)',lines[k]):
                        if m.group(1) not in ('return','else'): t=m.group(1)
                    m=re.match(r'\s*([\w:]+(?:< ?\w+ ?>)?)\s+\w+(?:\s*,\s*\w+)*;',lines[k])
                    if m and n and re.search(r'\b'+re.escape(n)+r'\b',lines[k]) and m.group(1) not in ('return','else'): t=m.group(1)
                return t
            b['outs']=[list(o)+[ty(o[2])] for o in b['outs']]; b['ins']=[list(o)+[ty(o[2])] for o in b['ins']]
            b['base']=base
            return b
        def visible(name):
            here=dict((c[0],len(c)) for c in conds)
            return [m for m in macros.get(name,[]) if all(here.get(k,v)==v for k,v in m[3])]
        if re.match(r'__asm__\s+__volatile__',ls):
            ln=i+1
            stmt=[]; depth=0; done=False
            j=i
            while not done:
                t=re.sub(r'"(?:\\.|[^"\\])*"','',lines[j]) if not lines[j].strip().startswith('#') else ''
                stmt.append(lines[j])
                depth+=t.count('(')-t.count(')')
                if depth==0 and ');' in t: done=True
                j+=1
            for cs,t in variants(stmt):
                p=t.index('('); e=t.rindex(')')
                out.append(types(dict(file=fn,line=ln,struct=struct,func=func,outer=cond(),inner=list(cs),**parse_asm(t[p+1:e])),i))
            i=j; continue
        m=re.match(r'(BOOST_ATOMIC_DETAIL_\w+)\s*\(',ls)
        if m and (m.group(1) in macros or 'MO_SWITCH' in m.group(1)):
            stmt=ls; j=i
            while ');' not in stmt and not stmt.endswith(')'):
                j+=1; stmt+=' '+lines[j].strip()
            a,_=args_of(stmt,stmt.index('('))
            name=m.group(1)
            if 'MO_SWITCH' in name:
                insn=name.replace('MO_SWITCH','MO_INSN')
                if insn in macros:
                  for ps,b,ln,dc in visible(insn):
                    none='"r"' if 'AARCH32' in name else '""' # ops_gcc_aarch32_common.hpp 24-44, ops_gcc_aarch64_common.hpp 24-44
                    for mo in ([none,none],['"a"',none],[none,'"l"'],['"a"','"l"']):
                        t=subst(b,ps,mo)
                        for mm in re.finditer(r'__asm__ __volatile__',t):
                            ar=t[t.index('(',mm.end()):]
                            # find end
                            _,e=args_of(ar,0)
                            out.append(types(dict(file=fn,line=ln,struct=struct,func=func,outer=cond()+['%s:%d'%x for x in dc if x[0] not in [c[0] for c in conds]],inner=[mo[0].strip('"')+','+mo[1].strip('"')],**parse_asm(ar[1:e-1])),i))
            else:
              for ps,b,ln,dc in visible(name):
                if '__asm__' in b:
                    t=subst(b,ps,a)
                    for mm in re.finditer(r'__asm__ __volatile__',t):
                        ar=t[t.index('(',mm.end()):]
                        _,e=args_of(ar,0)
                        out.append(types(dict(file=fn,line=i+1,macro=ln,struct=struct,func=func,outer=cond(),inner=[],**parse_asm(ar[1:e-1])),i))
            i=j+1; continue
        i+=1
    return out

if __name__=='__main__':
    allb=[]
    for f in FILES:
        b=blocks(f); allb+=b
        print(f,len(b),file=sys.stderr)
    json.dump(allb,sys.stdout,indent=1)
