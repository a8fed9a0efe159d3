#!/usr/bin/env python3
# Reads the function bodies of the portable layers of Boost.Atomic and prints them as a Coq table
# (rocq/theories/TextTable.v, in the syntax of TextModel.v).
#   usage: extract_text.py /repo/include/boost/atomic > rocq/theories/TextTable.v
# A construct that is not in the syntax stops the extraction.
import re,sys
root=sys.argv[1]
D='detail/'
FILES=[D+f for f in ['core_ops_gcc_atomic.hpp','core_ops_gcc_sync.hpp','core_ops_linux_arm.hpp','core_ops_windows.hpp',
 'cas_based_exchange.hpp','core_ops_cas_based.hpp','extending_cas_based_arithmetic.hpp','extra_ops_generic.hpp',
 'fp_ops_generic.hpp','extra_fp_ops_generic.hpp','atomic_impl.hpp','atomic_ref_impl.hpp','atomic_flag_impl.hpp']]
# functions that are not part of the table
SKIP=re.compile(r'^(clear_padding_bits|wait_until|wait_for|is_lock_free|has_native_wait_notify|notify_\w+|value|storage|fence_\w+|operator=)$')
FENCE=re.compile(r'^(fence_\w+|__sync_synchronize|BOOST_ATOMIC_DETAIL_COMPILER_BARRIER|hardware_full_fence)$')
ORD={'relaxed':'Relaxed','consume':'Consume','acquire':'Acquire','release':'Release','acq_rel':'AcqRel','seq_cst':'SeqCst'}
TYPES={'storage_type':'TStorage','emulated_storage_type':'TEmul','value_type':'TValue','value_arg_type':'TValue',
 'uintptr_storage_type':'TUptr','signed_storage_type':'TSigned','bool':'TBool','memory_order':'TOrder','void':'TVoid'}
def die(*a): sys.exit('extract_text: '+' '.join(str(x) for x in a))
TOK=re.compile(r'#[^\n]*(?:\\\n[^\n]*)*|[A-Za-z_]\w*|0x[0-9a-fA-F]+|\d+u?|->|::|\+\+|--|[-+*/%&|^]=|&&|\|\||[=!<>]=|<<|[^\s]')
class T:
    __slots__=('s','ln')
    def __init__(self,s,ln): self.s=s; self.ln=ln
def tokens(text):
    text=re.sub(r'/\*.*?\*/|//[^\n]*',lambda m:re.sub(r'[^\n]',' ',m.group(0)),text,flags=re.S)
    r=[];ln=1;pos=0
    for m in TOK.finditer(text):
        ln+=text.count('\n',pos,m.start()); pos=m.start()
        s=m.group(0)
        if s.startswith('#'): s=re.sub(r'\\\n',' ',s); s=re.sub(r'^#\s*','#',s); s=re.sub(r'\s+',' ',s).strip()
        r.append(T(s,ln))
    return r
def close(t,i):
    o=t[i].s; c={'(':')','{':'}','<':'>'}[o]; d=0
    while i<len(t):
        if t[i].s==o: d+=1
        elif t[i].s==c:
            d-=1
            if d==0: return i
        i+=1
    die('unbalanced',o,'at',t[i-1].ln)
def split(t):
    r=[];cur=[];d=0
    for x in t:
        if x.s in '([{<' and len(x.s)==1: d+=1
        if x.s in ')]}>' and len(x.s)==1: d-=1
        if x.s==',' and d==0: r.append(cur); cur=[]
        else: cur.append(x)
    if cur: r.append(cur)
    return r
def q(s): return '"'+s.replace('"','""')+'"'
class Ctx: pass
# ---- expressions -------------------------------------------------------------------------------------------------
class P:
    def __init__(self,t,c): self.t=t; self.i=0; self.c=c
    def pk(self,k=0): return self.t[self.i+k].s if self.i+k<len(self.t) else ''
    def nx(self):
        self.i+=1; return self.t[self.i-1].s
    def need(self,s):
        if self.pk()!=s: die(self.c.file,self.t[min(self.i,len(self.t)-1)].ln,'expected',s,'found',self.pk())
        self.i+=1
    def ln(self): return self.t[min(self.i,len(self.t)-1)].ln
    def typ(self,toks):
        s=[x.s for x in toks if x.s not in('const','volatile','&')]
        n=' '.join(s)
        if n in self.c.types: return self.c.types[n]
        if n in TYPES: return TYPES[n]
        if n=='unsigned int': return 'TUInt'
        die(self.c.file,toks[0].ln,'type',n)
    LEV=[['==','!='],['|'],['^'],['&'],['<<'],['+','-'],['*']]
    # C++ precedence: * ; + - ; << ; == != ; & ; ^ ; |
    ORDER=[['|'],['^'],['&'],['==','!='],['<<'],['+','-'],['*']]
    OPN={'|':'OOr','^':'OXor','&':'OAnd','==':'OEq','!=':'ONe','<<':'OShl','+':'OAdd','-':'OSub','*':'OMul'}
    def expr(self,l=0):
        if l==len(self.ORDER): return self.unary()
        x=self.expr(l+1)
        while self.pk() in self.ORDER[l]:
            o=self.nx(); y=self.expr(l+1)
            x='EBin %s (%s) (%s)'%(self.OPN[o],x,y)
        return x
    def unary(self):
        s=self.pk()
        if s in('!','~','-'):
            self.nx(); return 'EUn %s (%s)'%({'!':'UNot','~':'UCompl','-':'UNeg'}[s],self.unary())
        if s=='(' and self.pk(1) in self.c.alltypes and self.pk(2)==')':
            self.nx(); t=self.nx(); self.nx()
            return 'ECast CStatic %s (%s)'%(self.typ([T(t,self.ln())]),self.unary())
        return self.primary()
    def angle(self):
        self.need('<'); j=close(self.t,self.i-1); r=self.t[self.i:j]; self.i=j+1; return r
    def primary(self):
        s=self.pk()
        if s=='(':
            # the kernel helper: ((kernel_cmpxchg32_t*)0xffff0fc0)(args)
            if [x.s for x in self.t[self.i:self.i+7]]==['(','(','kernel_cmpxchg32_t','*',')','0xffff0fc0',')']:
                self.i+=7; return self.call('','kernel_cmpxchg32')
            self.nx(); x=self.expr(); self.need(')'); return x
        if re.match(r'\d',s): self.nx(); return 'ENum %s'%s.rstrip('u')
        if s in('true','false'): self.nx(); return 'EBool '+s
        if s=='sizeof':
            self.nx(); self.need('('); self.need('T'); self.need(')'); return 'ESizeT'
        # qualified name
        path=[self.nx()]; 
        while self.pk()=='::': self.nx(); path.append(self.nx())
        if path[:2]==['atomics','detail']: path=path[2:]
        n=path[-1]
        if len(path)==1 and n in('static_cast','bitwise_cast','bitwise_fp_cast','integral_truncate'):
            t=self.typ(self.angle()); self.need('('); e=self.expr(); self.need(')')
            return 'ECast %s %s (%s)'%({'static_cast':'CStatic','bitwise_cast':'CBits','bitwise_fp_cast':'CFpBits','integral_truncate':'CTruncate'}[n],t,e)
        if n=='integral_extend':
            a=split(self.angle())
            if [x.s for x in a[0]]!=['Signed']: die('integral_extend',self.ln())
            t=self.typ(a[1]); self.need('('); e=self.expr(); self.need(')')
            return 'ECast CExtend %s (%s)'%(t,e)
        if n=='value_size_of':
            if [x.s for x in self.angle()]!=['value_type']: die('value_size_of',self.ln())
            self.need('::'); self.need('value'); return 'EValueSize'
        if n=='convert_memory_order_to_gcc':
            self.need('('); e=self.expr(); self.need(')'); return e
        if n=='deduce_failure_order':
            self.need('('); e=self.expr(); self.need(')'); return 'EFail (%s)'%e
        m=re.match(r'memory_order_(\w+)$',n)
        if m and m.group(1) in ORD: return 'EOrd '+ORD[m.group(1)]
        if n=='__ATOMIC_SEQ_CST': return 'EOrd SeqCst'
        if n=='storage_type' and self.pk()=='(' and self.pk(1)==')': self.i+=2; return 'EZero'
        if self.pk()=='(':
            return self.call('::'.join(path[:-1]),n)
        if len(path)>1: die(self.c.file,self.ln(),'name',path)
        if n==self.c.loc: return 'EStorage'
        return 'EVar '+q(n)
    def call(self,qual,n):
        self.need('('); j=close(self.t,self.i-1); a=split(self.t[self.i:j]); self.i=j+1
        return 'ECall %s %s [%s]'%(q(qual),q(n),'; '.join(self.arg(x) for x in a))
    def arg(self,t):
        s=[x.s for x in t]
        if s in ([self.c.loc],['&',self.c.loc],['this','->','storage','(',')'],['m_storage']): return 'ALoc'
        j=' '.join(s)
        if j in('const_cast < storage_type volatile * > ( & storage )','const_cast < storage_type volatile & > ( storage )','const_cast < storage_type * > ( & storage )'): return 'ALoc'
        m=re.match(r'reinterpret_cast < storage_type & > \( (\w+) \)$',j)
        if m: return 'AReint '+q(m.group(1))
        if len(s)==2 and s[0]=='&': return 'ARef '+q(s[1])
        if len(s)==3 and s[1:]==['(',')'] and s[0] in self.c.tags: return 'ATag '+q(s[0])
        # a variable for a reference parameter: the second parameter of the compare_exchange functions
        p=P(t,self.c); e=p.expr()
        if p.i!=len(t): die(self.c.file,t[0].ln,'argument',j)
        return 'AVal (%s)'%e
# ---- statements --------------------------------------------------------------------------------------------------
def refs(s):
    """the second argument (the first of members) of a compare_exchange is passed by reference"""
    s=re.sub(r'(ECall "[^"]*" "compare_exchange_\w+" \[ALoc; )AVal \(EVar ("\w+")\)',r'\1ARef \2',s)
    return re.sub(r'(ECall "" "compare_exchange_\w+" \[)AVal \(EVar ("\w+")\)',r'\1ARef \2',s)
def isfence(e): 
    m=re.match(r'ECall "[^"]*" "(\w+)" ',e); return bool(m and FENCE.match(m.group(1)))
def block(p,end=None):
    r=[]
    while p.i<len(p.t) and p.pk()!=end and not re.match(r'#(else|elif|endif)',p.pk()):
        r+=stmt(p)
    return r
def lst(b): return '['+'; '.join(b)+']'
def body(p):
    if p.pk()=='{':
        p.nx(); b=block(p,'}'); p.need('}'); return b
    return stmt(p)
def stmt(p):
    c=p.c; s=p.pk()
    if s.startswith('#'):
        m=re.match(r'#(if|ifdef|ifndef) (.*)',s)
        if not m or m.group(1)!='if': die(c.file,p.ln(),s)
        p.nx(); b1=block(p); b2=[]
        if p.pk()=='#else': p.nx(); b2=block(p)
        if not p.pk().startswith('#endif'): die(c.file,p.ln(),'endif expected',p.pk())
        p.nx()
        return ['SConf %s %s %s'%(q(m.group(2)),lst(b1),lst(b2))]
    if s==';': p.nx(); return []
    if s=='{': return body(p)
    if s=='using':     # local aliases
        while p.nx()!=';': pass
        return []
    if s=='BOOST_ASSERT':
        p.nx(); p.i=close(p.t,p.i)+1; p.need(';'); return []
    if s=='return':
        p.nx(); e=p.expr(); p.need(';'); return ['SReturn (%s)'%e]
    if s=='while':
        p.nx(); p.need('('); e=p.expr(); p.need(')'); b=body(p); return ['SWhile (%s) %s'%(e,lst(b))]
    if s=='do':
        p.nx(); b=body(p); p.need('while'); p.need('('); e=p.expr(); p.need(')'); p.need(';')
        return ['SDoWhile %s (%s)'%(lst(b),e)]
    if s=='if':
        p.nx(); p.need('('); k=p.i
        j=close(p.t,p.i-1); cond=p.t[p.i:j]; p.i=j+1
        b1=body(p); b2=[]
        if p.pk()=='else': p.nx(); b2=body(p)
        if not b2 and b1 and all(x=='SFence' for x in b1): return ['SFence']
        cp=P(cond,c); e=cp.expr()
        if cp.i!=len(cond): die(c.file,cond[0].ln,'condition')
        return ['SIf (%s) %s %s'%(e,lst(b1),lst(b2))]
    # declarations
    k=p.i; 
    while p.pk() in('const',): p.nx()
    if p.pk() in c.alltypes and re.match(r'[A-Za-z_]',p.pk(1)):
        t=p.typ([p.t[p.i]]); p.nx(); r=[]
        while True:
            x=p.nx()
            if p.pk()=='=': p.nx(); r.append('SInit %s %s (%s)'%(t,q(x),p.expr()))
            else: r.append('SDecl %s %s'%(t,q(x)))
            if p.pk()==',': p.nx(); continue
            p.need(';'); return r
    p.i=k
    if re.match(r'[A-Za-z_]',s) and p.pk(1)=='=':
        p.nx(); p.nx(); e=p.expr(); p.need(';')
        return ['SStore (%s)'%e] if s==c.loc else ['SSet %s (%s)'%(q(s),e)]
    e=p.expr(); p.need(';')
    if isfence(e): return ['SFence']
    m=re.match(r'ECall "" "non_atomic_load" \[ALoc; AVal \(EVar ("\w+")\)\]$',e)
    if m: return ['SPlain '+m.group(1)]
    return ['SDo (%s)'%e]
# ---- functions and classes ---------------------------------------------------------------------------------------
def params(toks,c):
    r=[];tag=None;loc=None
    for a in split(toks):
        s=[x.s for x in a]
        d='None'
        if '=' in s:
            k=s.index('='); m=re.match(r'memory_order_(\w+)$',' '.join(s[k+1:]))
            if not m: die(c.file,a[0].ln,'default')
            d='(Some %s)'%ORD[m.group(1)]; a=a[:k]; s=s[:k]
        if s[:2]==['std','::'] and s[2] in('true_type','false_type'): tag='true' if s[2]=='true_type' else 'false'; continue
        if s==['int']: continue                      # postfix operators
        if s==['memory_order']: r.append(('',"TOrder",'false',d)); continue
        n=s[-1]; ts=a[:-1]
        if 'storage_type' in s and '&' in s and n=='storage': loc=n; continue
        p=P(ts,c)
        r.append((n,p.typ(ts),'true' if '&' in s else 'false',d))
    return r,tag,loc
def classes(file):
    t=tokens(open(root+'/'+file).read())
    out=[];i=0
    while i<len(t):
        if t[i].s in('struct','class') and t[i+1].s!='>' and (i==0 or t[i-1].s not in('<',',')):
            j=i+1
            while t[j].s not in('{',';'): j+=1
            if t[j].s==';': i=j; continue
            hd=[x.s for x in t[i+1:j]]
            if ':' in hd: hd=hd[:hd.index(':')]
            name=' '.join(hd)
            e=close(t,j)
            c=Ctx(); c.file=file; c.types={}; c.loc='storage'; c.tags=set(); c.name=name
            cl=members(t,j+1,e,c)
            if cl[1]: out.append((file,t[i].ln,name,cl[0],cl[1]))
            i=e
        i+=1
    return out
def members(t,i,e,c):
    consts=[];fns=[];tmpl=False
    # aliases first
    k=i
    while k<e:
        if t[k].s=='using' and t[k+2].s=='=':
            n=t[k+1].s; j=k
            while t[j].s!=';': j+=1
            v=' '.join(x.s for x in t[k+3:j])
            if n=='difference_type':
                c.types[n]='TDiff' if v=='std :: ptrdiff_t' else 'TValue' if v in('value_type','typename base_type :: value_type') else die(c.file,t[k].ln,v)
            if n=='value_arg_type' and v not in('value_type','typename base_type :: value_arg_type') and not v.startswith('typename std :: conditional'): die(c.file,t[k].ln,v)
            if n in('cxchg_use_bitwise_cast','plain_stores_loads_are_atomic'): c.tags.add(n)
            k=j
        k+=1
    c.alltypes=set(TYPES)|set(c.types)
    while i<e:
        s=t[i].s
        if s.startswith('#') or s in(':','public','private','protected',';'): i+=1; continue
        if s=='using':
            cond=False
            while t[i].s!=';' or cond:
                if t[i].s.startswith('#if'): cond=True
                if t[i].s.startswith('#endif'): break
                i+=1
            i+=1; continue
        if s=='template': tmpl=True; i=close(t,i+1)+1; continue
        # one declaration: up to ';' or a body
        j=i; par=None; start=i
        while t[j].s not in(';','{'):
            if t[j].s=='(' :
                if par is None: par=j
                j=close(t,j)
            j+=1
        if t[j].s==';':
            h=[x.s for x in t[i:j]]
            if h[:4]==['static','constexpr','storage_type','sign_mask']:
                p=P(t[i+5:j],c); consts.append('SInit TStorage "sign_mask" (%s)'%p.expr())
            elif h[:2]!=['static','constexpr'] and par is None and 'm_value' not in h: die(c.file,t[i].ln,h)
            i=j+1; tmpl=False; continue
        b=close(t,j)
        name=t[par-1].s; st=par-1
        if not re.match(r'[A-Za-z_]',name) or t[par-2].s=='operator':
            while t[st].s!='operator': st-=1
            name=''.join(x.s for x in t[st:par])
        ret=[x for x in t[i:st] if x.s not in('static','BOOST_FORCEINLINE','constexpr','explicit','BOOST_ATOMIC_DETAIL_CONSTEXPR_ATOMIC_CTOR')]
        cp=close(t,par)
        if [x.s for x in t[par+1:cp]]==['int']: name+='(int)'     # the postfix operators
        if tmpl or SKIP.match(name): i=b+1; tmpl=False; continue
        ln=t[i].ln
        # the line of the name
        ln=t[st].ln
        ps=t[par+1:cp]
        if not ret:    # constructor: its member initialiser is what the storage gets
            init=t[cp+1:j]
            k=next((k for k,x in enumerate(init) if x.s==':'),None)
            if k is not None:
                ini=init[k+1:]
                arg=ini[2:close(ini,1)]
                if ini[0].s in('base_type','m_storage') and 'base_atomic_ref' not in name and c.file!='detail/atomic_ref_impl.hpp':
                    pr=[x for x in split(ps)]
                    pr=[[y for y in x] for x in pr]
                    # default arguments of constructors play no part
                    pl=[]
                    for x in pr:
                        z=[y.s for y in x]
                        if '=' in z: x=x[:z.index('=')]
                        pl.append((x[-1].s,P(x[:-1],c).typ(x[:-1]),'false','None'))
                    e1=P(arg,c).expr() if arg else 'EZero'
                    if arg and 'void ,' in c.name: e1='ECall "base_type" "(constructor)" [AVal (%s)]'%e1
                    fns.append((ln,'TStorage','(constructor)',pl,'None',['SReturn (%s)'%e1]))
            i=b+1; continue
        r,tag,loc=params(ps,c)
        if 'm_storage' in [x.s for x in t[j:b]]: c.loc='m_storage'
        else: c.loc=loc or 'storage'
        c2=c
        rt=P(ret,c).typ(ret)
        bp=P(t[j+1:b],c); bd=block(bp)
        if bp.i!=len(bp.t): die(c.file,bp.ln(),'rest of body',bp.pk())
        fns.append((ln,rt,name,r,'None' if tag is None else '(Some %s)'%tag,[refs(x) for x in bd]))
        i=b+1
    return consts,fns
print('''(** * The function bodies of the portable layers.

    Written by tools/extract_text.py from the headers of Boost.Atomic; do not edit. *)
From Coq Require Import ZArith List String.
From Verif Require Import Order TextModel.
Import ListNotations.
Open Scope string_scope.
Open Scope list_scope.
Open Scope Z_scope.
''')
names=[]
for f in FILES:
    for k,(file,ln,name,consts,fns) in enumerate(classes(f)):
        cid=re.sub(r'\W','_',file[len(D):-4])+'_%d'%ln
        names.append(cid)
        print('(** %s:%d %s *)'%(file,ln,name))
        print('Definition %s : cls := Cls %s %d %s %s ['%(cid,q(file),ln,q(name),lst(consts)))
        print(';\n'.join('  Fn %d %s %s [%s] %s\n    %s'%(l,rt,q(n),'; '.join('Par %s %s %s %s'%(q(x),ty,rf,d) for x,ty,rf,d in ps),tag,lst(b)) for l,rt,n,ps,tag,b in fns))
        print('].\n')
print('Definition text : list cls := [\n  %s\n].'%';\n  '.join(names))
