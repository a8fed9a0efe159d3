#!/usr/bin/env python3
# Extracts from the headers of Boost.Atomic, for every function that has a named memory_order parameter and for every
# operator, the control flow between the calls it makes that take a memory order, and prints them as a Coq table
# (rocq/theories/OrderTable.v).
#   usage: extract_orders.py /repo/include/boost/atomic > rocq/theories/OrderTable.v
#          extract_orders.py /repo/include/boost/atomic dump
# Functions that consist of machine code or fences (asm statements, __sync and Interlocked functions) become leaves:
# their orders are the subject of other properties.
import re,sys,os
root=sys.argv[1]
D='detail/'
FILES=['atomic.hpp','atomic_ref.hpp','ipc_atomic.hpp','ipc_atomic_ref.hpp',D+'atomic_impl.hpp',D+'atomic_ref_impl.hpp',D+'atomic_flag_impl.hpp',
 D+'wait_ops_generic.hpp',D+'wait_ops_futex.hpp',D+'wait_ops_freebsd_umtx.hpp',D+'wait_ops_dragonfly_umtx.hpp',
 D+'wait_ops_darwin_ulock.hpp',D+'wait_ops_windows.hpp',
 D+'extra_fp_ops_generic.hpp',D+'fp_ops_generic.hpp',D+'extra_ops_generic.hpp',
 D+'extra_ops_gcc_x86.hpp',D+'extra_ops_gcc_arm.hpp',D+'extra_ops_gcc_aarch32.hpp',D+'extra_ops_gcc_aarch64.hpp',
 D+'extra_ops_gcc_ppc.hpp',
 D+'core_ops_cas_based.hpp',D+'cas_based_exchange.hpp',D+'extending_cas_based_arithmetic.hpp',
 D+'core_ops_gcc_atomic.hpp',D+'core_ops_gcc_sync.hpp',D+'core_ops_linux_arm.hpp',D+'core_ops_windows.hpp',
 D+'core_arch_ops_gcc_x86.hpp',D+'core_arch_ops_gcc_arm.hpp',D+'core_arch_ops_gcc_aarch32.hpp',D+'core_arch_ops_gcc_aarch64.hpp',
 D+'core_arch_ops_gcc_ppc.hpp',D+'core_arch_ops_gcc_alpha.hpp',D+'core_arch_ops_gcc_sparc.hpp',
 D+'core_arch_ops_msvc_x86.hpp',D+'core_arch_ops_msvc_arm.hpp']
ORD={'relaxed':'Relaxed','consume':'Consume','acquire':'Acquire','release':'Release','acq_rel':'AcqRel','seq_cst':'SeqCst'}
IGNORE={'deduce_failure_order','convert_memory_order_to_gcc','cas_failure_order_must_not_be_stronger_than_success_order','static_cast'}
KEY={'if','while','for','switch','return','sizeof','noexcept','decltype','alignof','static_cast','defined','catch'}
def blank(s): return re.sub(r'[^\n]',' ',s)
def comments(t):
    return re.sub(r'/\*.*?\*/|//[^\n]*',lambda m:blank(m.group(0)),t,flags=re.S)
def directives(t):
    out=[];cont=False
    for l in t.split('\n'):
        if cont or re.match(r'\s*#',l):
            cont=l.rstrip().endswith('\\'); out.append(' '*len(l))
        else: out.append(l)
    return '\n'.join(out)
def match(t,i):
    o=t[i]; c={'(':')','{':'}'}[o]; d=0
    while i<len(t):
        if t[i]==o: d+=1
        elif t[i]==c:
            d-=1
            if d==0: return i
        i+=1
    raise Exception('unbalanced')
def args(s):
    r=[];d=0;cur=''
    for k,ch in enumerate(s):
        if ch in '([{<': d+=1
        if ch in ')]}' or ch=='>' and s[k-1:k]!='-': d-=1
        if ch==',' and d==0: r.append(cur.strip()); cur=''
        else: cur+=ch
    if cur.strip(): r.append(cur.strip())
    return r
def functions(t,full):
    i=0; cls='?'
    rx=re.compile(r'\b(?:struct|class)\s+(?:[A-Z_0-9]+\s+)?(\w+)|(operator\s*(?:\(\)|[^\s\w(]+|\w+)|\b[A-Za-z_]\w*)\s*\(')
    while True:
        m=rx.search(t,i)
        if not m: return
        if m.group(1):
            k=re.search(r'[;{(]',t[m.end():])
            if k and k.group(0)=='{': cls=m.group(1)
            i=m.end(); continue
        name=re.sub(r'\s+',' ',m.group(2))
        if name in KEY or name.startswith('BOOST_'): i=m.end(); continue
        o=m.end()-1; c=match(t,o); j=c+1
        while True:
            q=re.match(r'\s*(const\b|volatile\b|noexcept\b|override\b|&)',t[j:])
            if not q: break
            j+=q.end(); p=re.match(r'\s*\(',t[j:])
            if q.group(1)=='noexcept' and p: j=match(t,j+p.end()-1)+1
        q=re.match(r'\s*\{',t[j:])
        if q:
            b=j+q.end()-1; e=match(t,b)
            yield cls,name,t[o+1:c],m.start(),b+1,e
            i=e+1
        else: i=m.end()
class Leaf(Exception): pass
class Fn:
    def __init__(self,src,params,name):
        self.t=src; self.params=params; self.name=name; self.nodes=[]; self.labels={}
    def order(self,a):
        a=a.strip()
        m=re.match(r'(?:atomics::detail::)?convert_memory_order_to_gcc\s*\((.*)\)$',a,re.S)
        if m: return self.order(m.group(1))
        m=re.match(r'(?:atomics::detail::)?deduce_failure_order\s*\((.*)\)$',a,re.S)
        if m:
            x=self.order(m.group(1))
            if x and x[0]=='Param': return ('Deduced',x[1])
            raise Exception('deduced from what? '+a)
        if a in self.params: return ('Param',self.params.index(a))
        m=re.match(r'(?:boost::)?memory_order(?:_|::)(\w+)$',a)
        if m and m.group(1) in ORD: return ('Given',ORD[m.group(1)])
        m=re.match(r'__ATOMIC_(\w+)$',a)
        if m and m.group(1).lower() in ORD: return ('Given',ORD[m.group(1).lower()])
        return None
    def sites(self,a,b):
        s=self.t[a:b]; r=[]
        for m in re.finditer(r'((?:\w+\s*(?:<[^<>;(){}]*>)?\s*::\s*|this->)*)(\w+)\s*(?:<[^<>;(){}]*>)?\s*\(',s):
            fn=m.group(2)
            if fn in KEY or fn.startswith('BOOST_') or fn in IGNORE: continue
            o=m.end()-1; c=match(s,o)
            oe=[x for x in (self.order(y) for y in args(s[o+1:c])) if x]
            own=self.name.startswith('operator') and m.group(1).strip() in('','this->') and \
                re.match(r'(add|sub|store|load|fetch_\w+|bitwise_\w+|negate)$',fn)
            if not oe and fn!='non_atomic_load' and not own: continue
            if fn.startswith('fence_') or fn.startswith('hardware_'): raise Leaf()
            # core_ops_windows.hpp loads by adding zero
            if fn=='fetch_add' and any(re.match(r'\(storage_type\)\s*0$',y) for y in args(s[o+1:c])): fn='fetch_add_zero'
            r.append((a+m.start(),a+c+1,fn,oe))
        if len(r)>1: raise Exception('more than one call: '+s)
        if r:
            q=re.search(r'\?|&&|\|\|',self.t[a:b])
            if q: raise Exception('conditional call: '+s)
        return r[0] if r else None
    def add(self,**n):
        self.nodes.append(n); return len(self.nodes)-1
    def call(self,site,yes,no): return self.add(call=site[2],orders=site[3],pos=site[0],yes=yes,no=no)
    def expr(self,a,b,nxt):
        s=self.sites(a,b)
        return self.call(s,[nxt],[nxt]) if s else nxt
    def cond(self,a,b,yes,no):
        s=self.sites(a,b)
        if s:
            neg=re.match(r'\s*!\s*$',self.t[a:s[0]]); rest=self.t[s[1]:b].strip()
            if rest=='' and neg: return self.call(s,[no],[yes])
            if rest=='' and self.t[a:s[0]].strip()=='': return self.call(s,[yes],[no])
            br=self.add(call=None,orders=[],pos=a,yes=[yes],no=[no])
            return self.call(s,[br],[br])
        return self.add(call=None,orders=[],pos=a,yes=[yes],no=[no])
    # parsing
    def ws(self,i):
        while i<len(self.t) and self.t[i].isspace(): i+=1
        return i
    def parse(self,i,end):          # statements up to '}' or #else/#elif/#endif
        out=[]
        while True:
            i=self.ws(i)
            if i>=end or self.t[i]=='}': return out,i
            m=re.match(r'#\s*(\w+)',self.t[i:])
            if m and m.group(1) in('else','elif','endif'): return out,i
            s,i=self.stmt(i,end)
            if s: out.append(s)
    def line(self,i):
        j=self.t.find('\n',i)
        while self.t[j-1]=='\\': j=self.t.find('\n',j+1)
        return j
    def stmt(self,i,end):
        i=self.ws(i); t=self.t
        m=re.match(r'#\s*(\w+)',t[i:])
        if m:
            if m.group(1) not in('if','ifdef','ifndef'): return None,self.line(i)
            alts=[];els=False; i=self.line(i)
            while True:
                b,i=self.parse(i,end); alts.append(('block',b))
                m=re.match(r'#\s*(\w+)',t[i:]); k=m.group(1); i=self.line(i)
                if k=='else': els=True
                if k=='endif': break
            if not els: alts.append(('block',[]))
            return ('alt',alts),i
        if t[i]=='{':
            b,j=self.parse(i+1,end); assert t[j]=='}'
            return ('block',b),j+1
        m=re.match(r'(if|while|for)\b\s*(?:constexpr\s*)?\(',t[i:])
        if m:
            o=i+m.end()-1; c=match(t,o)
            body,j=self.stmt(c+1,end)
            if m.group(1)=='if':
                k=self.ws(j); els=None
                if re.match(r'else\b',t[k:]): els,j=self.stmt(k+4,end)
                return ('if',o+1,c,body,els),j
            if m.group(1)=='while': return ('while',o+1,c,body),j
            p=t[o+1:c].split(';'); assert len(p)==3
            a0=o+1; a1=a0+len(p[0])+1; a2=a1+len(p[1])+1
            if any(self.sites(x,y) for x,y in((a0,a1-1),(a1,a2-1),(a2,c))): raise Exception('call in for')
            return ('while',a1,a2-1,body,not p[1].strip()),j
        m=re.match(r'do\b',t[i:])
        if m:
            body,j=self.stmt(i+2,end); j=self.ws(j)
            m=re.match(r'while\s*\(',t[j:]); o=j+m.end()-1; c=match(t,o)
            return ('do',o+1,c,body),t.index(';',c)+1
        m=re.match(r'(\w+)\s*:(?!:)',t[i:])
        if m and m.group(1) not in('default','public','private'): return ('label',m.group(1)),i+m.end()
        if re.match(r'(switch|case|default|try|catch|asm|__asm__|__asm)\b',t[i:]): raise Leaf()
        if re.match(r'BOOST_ASSERT\w*\s*\(',t[i:]): return ('assert',i),t.index(';',i)+1
        # a simple statement
        d=0;j=i
        while not (t[j]==';' and d==0):
            if t[j] in '({': d+=1
            if t[j] in ')}': d-=1
            j+=1
        m=re.match(r'(return|goto|break|continue)\b\s*(\w*)',t[i:j])
        if m:
            k=m.group(1)
            if k=='return': return ('return',i+6,j),j+1
            if k=='goto': return ('goto',m.group(2)),j+1
            return (k,),j+1
        return ('expr',i,j),j+1
    # control flow, from the end backwards
    def collect(self,s):
        if not s: return
        if s[0]=='label': self.labels[s[1]]=self.add(call=None,orders=[],pos=0,yes=None,no=None)
        for x in s[1:]:
            if isinstance(x,tuple) and x and isinstance(x[0],str): self.collect(x)
            if isinstance(x,list): [self.collect(y) for y in x]
    def seq(self,l,nxt,brk,cnt):
        for s in reversed(l): nxt=self.gen(s,nxt,brk,cnt)
        return nxt
    def gen(self,s,nxt,brk,cnt):
        if s is None: return nxt
        k=s[0]
        if k=='block': return self.seq(s[1],nxt,brk,cnt)
        if k=='alt':
            e=[self.gen(x,nxt,brk,cnt) for x in s[1]]
            if all(x==nxt for x in e): return nxt
            return self.add(call=None,orders=[],pos=0,yes=e,no=e)
        if k=='assert': return nxt
        if k=='expr': return self.expr(s[1],s[2],nxt)
        if k=='return': return self.expr(s[1],s[2],'EXIT')
        if k=='goto': return self.labels[s[1]]
        if k=='break': return brk
        if k=='continue': return cnt
        if k=='label':
            n=self.nodes[self.labels[s[1]]]; n['yes']=n['no']=[nxt]; return self.labels[s[1]]
        if k=='if':
            return self.cond(s[1],s[2],self.gen(s[3],nxt,brk,cnt),self.gen(s[4],nxt,brk,cnt))
        if k in('while','do'):
            head=self.add(call=None,orders=[],pos=s[1],yes=None,no=None)
            body=self.add(call=None,orders=[],pos=s[1],yes=None,no=None)
            if len(s)>4 and s[4] or self.t[s[1]:s[2]].strip()=='true': c=body
            else: c=self.cond(s[1],s[2],body,nxt)
            self.nodes[head]['yes']=self.nodes[head]['no']=[c]
            b=self.gen(s[3],head,nxt,head)
            self.nodes[body]['yes']=self.nodes[body]['no']=[b]
            return head if k=='while' else body
        raise Exception(k)
def compress(nodes,entry):
    # drop nodes that do nothing, number the rest from the entry on
    def succ(l,seen=()):
        r=[]
        for x in l:
            for y in follow(x,seen):
                if y not in r: r.append(y)
        return r
    def follow(x,seen):
        if x=='EXIT' or nodes[x]['call']: return [x]
        if x in seen: return []
        return succ(nodes[x]['yes']+nodes[x]['no'],seen+(x,))
    start=follow(entry,())
    num={};todo=list(start)
    while todo:
        x=todo.pop(0)
        if x=='EXIT' or x in num: continue
        num[x]=len(num); todo+=succ(nodes[x]['yes'])+succ(nodes[x]['no'])
    out=[(nodes[x],succ(nodes[x]['yes']),succ(nodes[x]['no'])) for x in num]
    ren=lambda l:[num[x] if x!='EXIT' else len(num) for x in l]
    return ren(start),[(n,ren(y),ren(o)) for n,y,o in out]
table=[];leaves=[]
for f in FILES:
    t=comments(open(os.path.join(root,f)).read()); s=directives(t)
    for cls,name,ps,pos,b,e in functions(s,t):
        line=t.count('\n',0,pos)+1
        params=[];defs=[]
        for p in args(ps):
            m=re.match(r'memory_order(?:\s+(\w+))?\s*(?:=\s*memory_order_(\w+))?$',re.sub(r'\s+',' ',p))
            if m: params.append(m.group(1) or ''); defs.append(m.group(2))
        if not params and not name.startswith('operator'): continue
        if name.startswith('fence_') or name in('cas_common_order','deduce_failure_order'): continue
        fn=Fn(t,params,name)
        try:
            if re.search(r'__asm__|\b__asm\b|\b__sync_|Interlocked|INTERLOCKED|_ExtendedCas|\b__iso_volatile|kuser_cmpxchg|hardware_full_fence',t[b:e]): raise Leaf()
            l,_=fn.parse(b,e)
            for x in l: fn.collect(x)
            entry=fn.seq(l,'EXIT',None,None)
            start,nodes=compress(fn.nodes,entry)
            if not nodes:
                if params: raise Leaf()
                continue
        except Leaf:
            leaves.append((f,line,name,len(params))); continue
        asserts=[re.sub(r'\s+',' ',a) for a in re.findall(r'BOOST_ASSERT\s*\((.*?)\)\s*;',t[b:e],re.S)]
        table.append((f,line,cls,name,list(zip(params,defs)),asserts,start,[(n['call'],n['orders'],t.count('\n',0,n['pos'])+1,y,o) for n,y,o in nodes]))
def oe(x): return '%s %s'%x
def nl(l): return '['+'; '.join(map(str,l))+']'
def checks(a,params):
    m=re.match(r'(\w+) != memory_order_(\w+)$',a)
    if m: return 'Differs %d %s'%(params.index(m.group(1)),ORD[m.group(2)])
    m=re.match(r'(?:atomics::detail::)?cas_failure_order_must_not_be_stronger_than_success_order\((\w+), (\w+)\)$',a)
    if m: return 'NotStronger %d %d'%(params.index(m.group(1)),params.index(m.group(2)))
    if 'order' in a: raise Exception(a)
    return None
if len(sys.argv)>2:
    for r in table:
        print(r[0],r[1],r[2],r[3],r[4],r[5],r[6])
        for k,s in enumerate(r[7]): print('     ',k,s)
    for r in leaves: print('LEAF',*r)
    sys.exit()
print("""(** Generated by tools/extract_orders.py from /repo/include/boost/atomic; do not edit.

    [functions]: the functions that have a memory order and call others, one entry per definition, with the file
    (below include/boost/atomic) and line, the name, the default of each order parameter, what is asserted about the orders,
    where the control flow begins, and the calls that take an order.  Each call has its line, the name of what is called,
    the orders passed and the places where control may go when it returns true and when it returns false; the number of
    calls stands for the end of the function.
    [machine_functions]: the functions that consist of machine code, compiler intrinsics or fences. *)
From Coq Require Import List String.
Require Import Verif.Order Verif.OrderFlow.
Import ListNotations.
Open Scope string_scope.
Open Scope list_scope.
""")
print('Definition functions : list function := [')
out=[]
for f,line,cls,name,ps,asserts,start,nodes in table:
    params=[p for p,_ in ps]
    ck=[c for c in (checks(a,params) for a in asserts) if c]
    ds='; '.join('Some '+ORD[d] if d else 'None' for _,d in ps)
    ns=';\n     '.join('Step %d "%s" [%s] %s %s'%(l,c,'; '.join(map(oe,os)),nl(y),nl(o)) for c,os,l,y,o in nodes)
    out.append('  Function "%s" %d "%s" [%s] [%s] %s\n    [%s]'%(f,line,name,ds,'; '.join(ck),nl(start),ns))
print(';\n'.join(out)+'].\n')
print('Definition machine_functions : list machine_function := [')
print(';\n'.join('  Machine "%s" %d "%s" %d'%x for x in leaves)+'].')
print("""
(** All of them, with the intrinsics of OrderFlow.v. *)
Definition machine : list machine_function := machine_functions ++ intrinsics.""")
