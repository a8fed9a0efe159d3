#!/usr/bin/env python3
# Reads the function bodies of the lock pool, of the lock-based operations and of the wait operations of Boost.Atomic
# and prints them as a Coq table (rocq/theories/PoolTable.v, in the syntax of PoolText.v).
#   usage: extract_pool.py /repo > rocq/theories/PoolTable.v
#          extract_pool.py /repo fp > rocq/theories/PoolFpTable.v (the lock-based floating-point operations)
#          extract_pool.py /repo timed > rocq/theories/PoolTimedTable.v (the timed waits on futexes)
# A construct that is not in the syntax stops the extraction.
import re,sys
root=sys.argv[1]
D='include/boost/atomic/detail/'
def die(*a): sys.exit('extract_pool: '+' '.join(str(x) for x in a))
# class (or namespace), section of src/lock_pool.cpp -> name of the table; the functions that are read
WAITS='wait wait_until_fallback wait_until_abs_timeout wait_until_dispatch wait_until wait_for notify_one notify_all'
TABLES=[
 ('src/lock_pool.cpp','lock_state','PTHREAD','pthread_lock','short_lock long_lock unlock'),
 ('src/lock_pool.cpp','lock_state','FUTEX','futex_lock','short_lock long_lock lock_slow_path unlock'),
 ('src/lock_pool.cpp','lock_state','SRW','srw_lock','short_lock long_lock unlock'),
 ('src/lock_pool.cpp','wait_state','PTHREAD','pthread_cond','wait notify_one notify_all'),
 ('src/lock_pool.cpp','wait_state','FUTEX','futex_cond','wait notify_one notify_all'),
 ('src/lock_pool.cpp','wait_state','SRW','srw_cond','wait notify_one notify_all'),
 ('src/lock_pool.cpp','','','pool','get_lock_index short_lock long_lock unlock wait wait_until wait_for notify_one notify_all'),
 ('src/lock_pool.cpp','','','fence','thread_fence'),
 (D+'lock_pool.hpp','','','hash','hash_ptr'),
 (D+'lock_pool.hpp','scoped_lock','','slock','scoped_lock ~scoped_lock get_lock_state'),
 (D+'lock_pool.hpp','scoped_wait_state','','swait','scoped_wait_state ~scoped_wait_state wait wait_until wait_for'),
 (D+'core_operations_emulated.hpp','core_operations_emulated','','core_emulated',None),
 (D+'extra_ops_emulated.hpp','extra_operations_emulated','','extra_emulated',None),
 (D+'wait_ops_emulated.hpp','wait_operations_emulated','','wait_emulated',WAITS),
 (D+'wait_ops_generic.hpp','wait_operations_generic < Base , false >','','wait_pool',WAITS),
 (D+'wait_ops_generic.hpp','wait_operations_generic < Base , true >','','wait_poll','wait wait_until_impl wait_until wait_for notify_one notify_all'),
 (D+'wait_ops_futex.hpp','wait_operations < Base , 4u , true , Interprocess >','','wait_futex','wait notify_one notify_all'),
]
FP=len(sys.argv)>2 and sys.argv[2]=='fp'
if FP: TABLES=[
 (D+'fp_ops_emulated.hpp','fp_operations_emulated','','fp_emulated',None),
 (D+'extra_fp_ops_emulated.hpp','extra_fp_operations_emulated','','extra_fp_emulated',None),
]
TIMED=len(sys.argv)>2 and sys.argv[2]=='timed'
if TIMED: TABLES=[
 (D+'wait_ops_futex.hpp','wait_operations < Base , 4u , true , Interprocess >','','timed_futex','wait_until_fallback wait_until_abs_timeout wait_until_dispatch wait_until wait_for'),
]
CONDS=['!defined(BOOST_WINDOWS)','defined(BOOST_ATOMIC_DETAIL_FUTEX_WAIT_BITSET)']
ORD={'relaxed':'Relaxed','consume':'Consume','acquire':'Acquire','release':'Release','acq_rel':'AcqRel','seq_cst':'SeqCst'}
ERRNO={'EINTR','ETIMEDOUT','EAGAIN','ENOSYS'}
# arguments that are passed by reference: function -> positions (the storage not counted)
REFS={'futex_operations::compare_exchange_strong':[1],'futex_operations::compare_exchange_weak':[1],'clock_gettime':[1]}
TOK=re.compile(r'#(?:[^\n\\]|\\\n|\\.)*|"[^"]*"|[A-Za-z_]\w*|0x[0-9a-fA-F]+|\d+u?|->|::|\+\+|--|[-+*/%&|^]=|&&|\|\||[=!<>]=|<<|[^\s]')
class T:
    __slots__=('s','ln')
    def __init__(self,s,ln): self.s=s; self.ln=ln
def tokens(text):
    text=re.sub(r'/\*.*?\*/|//[^\n]*',lambda m:re.sub(r'[^\n]',' ',m.group(0)),text,flags=re.S)
    r=[];ln=1;pos=0
    for m in TOK.finditer(text):
        ln+=text.count('\n',pos,m.start()); pos=m.start(); s=m.group(0)
        if s.startswith('#'): s=re.sub(r'\\\n',' ',s); s=re.sub(r'^#\s*','#',s); s=re.sub(r'\s+',' ',s).strip()
        r.append(T(s,ln))
    return r
PAIR={'(':')','{':'}','<':'>','[':']'}
def close(t,i):
    o=t[i].s; c=PAIR[o]; d=0
    while i<len(t):
        if t[i].s==o: d+=1
        elif t[i].s==c:
            d-=1
            if d==0: return i
        i+=1
    die('unbalanced',o,'at',t[i-1].ln)
def split(t):
    r=[];cur=[];d=0
    for x in t:
        if x.s in('(','[','{','<'): d+=1
        if x.s in(')',']','}','>'): d-=1
        if x.s==',' and d==0: r.append(cur); cur=[]
        else: cur.append(x)
    if cur: r.append(cur)
    return r
def q(s): return '"'+s.replace('"','""')+'"'
def lst(b): return '['+'; '.join(b)+']'
# ---- the functions of a file -------------------------------------------------------------------------------------
class F: pass
def functions(file):
    t=tokens(open(root+'/'+file).read()); out=[]; consts={}; members={}
    pp=[]   # conditions in force: [text, positive]
    def section():
        for c,_ in pp:
            if 'BOOST_ATOMIC_USE_PTHREAD' in c[0] and len(c)==1: return 'PTHREAD'
            if 'BOOST_ATOMIC_USE_PTHREAD' in c[0] and len(c)==2 and 'BOOST_ATOMIC_USE_FUTEX' in c[1]: return 'FUTEX'
            if 'BOOST_ATOMIC_USE_PTHREAD' in c[0] and len(c)==3: return 'SRW'
        return ''
    def scope(i,end,cls):
        while i<end:
            s=t[i].s
            if s.startswith('#'):
                m=re.match(r'#(ifdef|ifndef|if|elif|else|endif)\b ?(.*)',s)
                if m:
                    k,c=m.groups()
                    if k in('if','ifdef','ifndef'): pp.append([[c],k])
                    elif k=='elif': pp[-1][0].append(c)
                    elif k=='else': pp[-1][0].append('')
                    else: pp.pop()
                i+=1; continue
            if s in(';','}',':','public','private'): i+=1; continue
            if s=='template': i=close(t,i+1)+1; continue
            if s=='namespace' or s in('struct','class'):
                j=i
                while t[j].s not in('{',';'): j+=1
                if t[j].s==';': i=j+1; continue
                e=close(t,j)
                hd=[x.s for x in t[i+1:j]]
                if s=='namespace': scope(j+1,e,cls)
                else:
                    if ':' in hd: hd=hd[:hd.index(':')]
                    scope(j+1,e,' '.join(hd))
                i=e+1; continue
            # a declaration: up to ; or {
            j=i;
            while t[j].s not in(';','{'):
                if t[j].s in('(',): j=close(t,j)
                j+=1
                if j>=end: break
            if j>=end: return
            d=t[i:j]; ds=[x.s for x in d]
            if t[j].s==';':
                if 'constexpr' in ds and '=' in ds:
                    k=ds.index('='); consts[(cls,ds[k-1])]=(d[k+1:],[x for x in ds[:k-1]])
                i=j+1; continue
            e=close(t,j)
            if '(' in ds and '=' not in ds[:ds.index('(')] and ds[0] not in('using','extern','enum','typedef'):
                k=ds.index('(')
                # attributes in front: take the first parenthesis after a plain name that is not a macro
                f=F(); f.file=file; f.name=ds[k-1]; f.cls=cls
                if k>=2 and ds[k-2]=='~': f.name='~'+f.name
                if k>=3 and ds[k-2]=='::': f.cls=ds[k-3]
                pe=close(t,i+k); f.params=t[i+k+1:pe]; f.tail=t[pe+1:j]; f.body=t[j+1:e]; f.ln=t[i].ln; f.end=t[e].ln
                f.sec=section(); f.cond=[]
                for c,k2 in pp:
                    if c[0] in CONDS: f.cond.append((c[0],len(c)==1))
                out.append(f)
            i=e+1
    scope(0,len(t),'')
    return out,consts
# ---- expressions -------------------------------------------------------------------------------------------------
class P:
    def __init__(self,t,c): self.t=t; self.i=0; self.c=c
    def pk(self,k=0): return self.t[self.i+k].s if self.i+k<len(self.t) else ''
    def nx(self):
        self.i+=1; return self.t[self.i-1].s
    def ln(self): return self.t[min(self.i,len(self.t)-1)].ln if self.t else 0
    def need(self,s):
        if self.pk()!=s: die(self.c.file,self.ln(),'expected',s,'found',self.pk())
        self.i+=1
    ORDER=[['||'],['&&'],['|'],['^'],['&'],['==','!='],['<','<=','>','>='],['<<'],['+','-'],['/','%']]
    OPN={'|':'OOr','^':'OXor','&':'OAnd','==':'OEq','!=':'ONe','<<':'OShl','+':'OAdd','-':'OSub','/':'ODiv','%':'OMod',
         '<':'OLt','<=':'OLe','>':'OGt','>=':'OGe'}
    def expr(self,l=0):
        if l==len(self.ORDER): return self.unary()
        x=self.expr(l+1)
        while self.pk() in self.ORDER[l]:
            o=self.nx(); y=self.expr(l+1)
            if FP:      # the only numbers in these files are floating-point values
                if o not in('+','-'): die(self.c.file,self.ln(),'operator',o)
                x='ECall %s [AVal (%s); AVal (%s)]'%(q('value_type'+o),x,y); continue
            x='E%s (%s) (%s)'%('OrElse' if o=='||' else 'And',x,y) if o in('||','&&') else 'EBin %s (%s) (%s)'%(self.OPN[o],x,y)
        return x
    FITS='(std::numeric_limits<decltype(%s.tv_sec)>::max)()'
    def unary(self):
        s=self.pk()
        if TIMED and s=='sec' and self.pk(1)=='<=':     # whether the seconds fit the type of tv_sec
            for x in('ts','futex_timespec::'):
                v=[y.s for y in tokens(self.FITS%x if x=='ts' else self.FITS.replace('%s.',x))]
                if [self.pk(2+k) for k in range(len(v))]==v: self.i+=2+len(v); return 'ECall "fits tv_sec" [AVal (EVar "sec")]'
        if s in('!','~','-'):
            self.nx()
            if FP:
                if s!='-': die(self.c.file,self.ln(),'operator',s)
                return 'ECall "-value_type" [AVal (%s)]'%self.unary()
            return 'EUn %s (%s)'%({'!':'UNot','~':'UCompl','-':'UNeg'}[s],self.unary())
        if s=='&' and self.pk(1)==self.c.loc and self.c.loc: self.i+=2; return 'EAddr'
        if s in('*','&'): self.nx(); return self.unary()     # pointers and references to locks, records: the same value
        if s=='(' and self.pk(1)=='storage_type' and self.pk(2)==')':
            self.i+=3; return 'ECast TS (%s)'%self.unary()
        return self.postfix(self.primary())
    def postfix(self,e):
        while self.pk() in('.','->'):
            self.nx(); n=self.nx()
            if n=='m_wait_states': self.need('.'); n+='.'+self.nx()
            if self.pk()=='(':
                a=self.args()
                if n=='count' and not a: continue
                e='ECall %s %s'%(q('.'+n),lst(['AVal (%s)'%e]+[self.arg(x,None,0) for x in a]))
            elif TIMED and n in('tv_sec','tv_nsec') and e=='EVar "ts"': e='EVar "ts.%s"'%n
            elif n=='tv_sec': e='ESec (%s)'%e
            elif n=='tv_nsec': e='ENsec (%s)'%e
            elif n in('m_mutex','m_cond'): e='EField (%s) %s'%(e,q(n))
            elif n=='state' and e.startswith('EPool'): pass
            else: die(self.c.file,self.ln(),'member',n)
        return e
    def angle(self):
        self.need('<'); j=close(self.t,self.i-1); r=' '.join(x.s for x in self.t[self.i:j]); self.i=j+1; return r
    def args(self):
        self.need('('); j=close(self.t,self.i-1); a=split(self.t[self.i:j]); self.i=j+1; return a
    def sub(self,t):
        p=P(t,self.c); e=p.expr()
        if p.i!=len(t): die(self.c.file,t[0].ln,'expression',' '.join(x.s for x in t))
        return e
    def arg(self,t,f,k):
        s=[x.s for x in t]
        if f in REFS and k in REFS[f]:
            if s[0]=='&': s=s[1:]
            if len(s)!=1: die(self.c.file,t[0].ln,'reference argument',s)
            return 'ARef '+q(s[0])
        if s in(['timed_out'],): return 'ARef "timed_out"'
        if TIMED and s==['ts']: return 'AVal (ECall "futex_timespec" [AVal (EVar "ts.tv_sec"); AVal (EVar "ts.tv_nsec")])'
        if TIMED and ' '.join(s)=='futex_private_flag | futex_wait_clock < ClockId > :: futex_flags': return 'AVal (ETpl "futex_clock_flag")'
        return 'AVal (%s)'%self.sub(t)
    def paren(self):
        self.need('('); j=close(self.t,self.i-1); e=self.sub(self.t[self.i:j]); self.i=j+1; return e
    def primary(self):
        s=self.pk(); c=self.c
        if s=='(': self.nx(); x=self.expr(); self.need(')'); return x
        if re.match(r'\d',s): self.nx(); return 'ENum %s'%s.rstrip('u')
        if s in('true','false'): self.nx(); return 'EBool '+s
        if s=='nullptr': self.nx(); return 'ENull'
        if s in('BOOST_LIKELY','BOOST_UNLIKELY'): self.nx(); return self.paren()
        if s=='static_cast':
            self.nx(); a=self.angle(); e=self.paren()
            if a=='storage_type': return 'ECast TS (%s)'%e
            if a in('lock_state *','wait_state *'): return e
            if TIMED and a in('decltype ( ts . tv_sec )','decltype ( ts . tv_nsec )','std :: int64_t'): return 'ECast TO (%s)'%e
            die(c.file,self.ln(),'static_cast',a)
        if s=='const_cast':
            self.nx(); a=self.angle(); self.need('('); x=[]
            while self.pk()!=')': x.append(self.nx())
            self.need(')')
            if a in('storage_type &','storage_type const &') and x==[c.loc]: return 'EStor'
            if a=='storage_type *' and x==['&',c.loc]: return 'EAddr'
            die(c.file,self.ln(),'const_cast',a)
        if s=='reinterpret_cast':
            self.nx(); a=self.angle()
            if a!='atomics :: detail :: uintptr_t': die(c.file,self.ln(),'reinterpret_cast',a)
            return 'ECall "address" [AVal (%s)]'%self.paren()
        if s=='this' and self.pk(1)=='->':
            self.i+=2; n=self.nx()
            if n!='get_lock_state' or self.args(): die(c.file,self.ln(),'this->',n)
            return 'ECall ".get_lock_state" [AVal (EVar "base")]'
        path=[self.nx()]
        if path[0]=='std' and [self.pk(k) for k in range(2)]==['::','integral_constant']:
            self.i+=2; a=self.angle()
            if a!='bool , has_posix_clock_traits < Clock > :: value' or self.args(): die(c.file,self.ln(),'integral_constant',a)
            return 'ETpl "has_posix_clock_traits"'
        targ=None
        if FP and path==['atomics'] and [self.pk(k) for k in range(4)]==['::','detail','::','bitwise_fp_cast']:
            self.i+=4; a=self.angle()
            if a not in('value_type','storage_type'): die(c.file,self.ln(),'bitwise_fp_cast',a)
            return 'ECall "bitwise_fp_cast< %s >" [AVal (%s)]'%(a,self.paren())
        while True:
            if self.pk()=='<' and path[-1] in('hash_ptr','ceil','posix_clock_traits','wait_until_fallback','wait_until_impl','wait_until_dispatch','wait_until_abs_timeout'):
                targ=self.angle()
                want={'hash_ptr':['Alignment'],'ceil':['std :: chrono :: nanoseconds'],'wait_until_abs_timeout':['Clock','Clock , ClockId']}.get(path[-1],['Clock','std :: chrono :: steady_clock'])
                if targ not in want: die(c.file,self.ln(),path,targ)
            if self.pk()=='::': self.nx(); path.append(self.nx()); continue
            break
        while path[0] in('atomics','detail','boost','winapi','std','chrono') and len(path)>1: path=path[1:]
        n='::'.join(path)
        m=re.match(r'memory_order_(\w+)$',n)
        if m and m.group(1) in ORD: return 'EOrd '+ORD[m.group(1)]
        if n=='posix_clock_traits::to_timespec': return self.paren()     # a time_point and its timespec: one number
        if n=='posix_clock_traits::clock_id': return 'ETpl "clock_id"'
        if n=='BOOST_ATOMIC_DETAIL_FUTEX_PRIVATE_FLAG' or n=='futex_private_flag': return 'ETpl "futex_private_flag"'
        if TIMED and n=='CLOCK_MONOTONIC': return 'ETpl "clock_id"'
        if n=='errno': return 'EVar "errno"'
        if n in ERRNO: return 'EErr '+q(n)
        if n in('lock_pool_size','Alignment','LongLock','infinite'): return 'ETpl '+q(n)
        if n=='g_lock_pool':
            self.need('['); j=close(self.t,self.i-1); e=self.sub(self.t[self.i:j]); self.i=j+1
            return 'EPool (%s)'%e
        if len(path)==2 and path[0]=='mutex_bits':
            if ('',path[1]) not in c.consts: die(c.file,self.ln(),'constant',n)
            toks,ty=c.consts[('',path[1])]
            if ty!=['constexpr','futex_operations','::','storage_type']: die('type of',n,ty)
            return 'ECast TF (%s)'%self.sub(toks)
        if n=='fast_loop_count':
            toks,ty=c.consts[(c.cls,n)]
            return self.sub(toks)
        if self.pk()=='(':
            a=self.args()
            if path[0]=='base_type': n='base_type::'+path[1]
            if a and [x.s for x in a[0]]==[c.loc] and c.loc and (len(path)==1 or path[0]=='base_type'): a=a[1:]
            if n=='wait_until_dispatch':
                if TIMED and ' '.join(x.s for x in a[-1])=='typename select_futex_wait < Clock > :: type ( )':
                    return 'EDispatch %s "select_futex_wait" %s'%(q(n),lst([self.arg(x,n,k) for k,x in enumerate(a[:-1])]))
                tag=self.sub(a[-1]); a=a[:-1]
                if tag!='ETpl "has_posix_clock_traits"': die(c.file,self.ln(),'dispatch')
                return 'EDispatch %s "has_posix_clock_traits" %s'%(q(n),lst([self.arg(x,n,k) for k,x in enumerate(a)]))
            return 'ECall %s %s'%(q(n),lst([self.arg(x,n,k) for k,x in enumerate(a)]))
        if len(path)>1: die(c.file,self.ln(),'name',n)
        if n==c.alias: return 'EStor'
        if n in('m_mutex','m_cond'): return 'EField (EVar "this") '+q(n)
        if n=='m_waiter_count': return 'ECall "m_waiter_count" [AVal (EVar "this")]'
        if n not in c.vars: die(c.file,self.ln(),'unknown name',n)
        return 'EVar '+q(n)
# ---- statements --------------------------------------------------------------------------------------------------
TYP=[('futex_operations :: storage_type','TF'),('storage_type','TS'),('lock_state &','TO'),('lock_state *','TO'),('wait_state *','TO'),
 ('int','TO'),('bool','TO'),('atomics :: detail :: uintptr_t','TO'),('std :: chrono :: nanoseconds','TO'),('timespec','TO'),
 ('std :: chrono :: steady_clock :: time_point','TO'),('typename Clock :: time_point','TO'),('value_type','TO'),('std :: int64_t','TO')]
def decl(p):
    """a declaration: type, or None"""
    k=p.i
    while p.pk() in('const','constexpr'): p.nx()
    for n,ty in TYP:
        w=n.split()
        if [p.pk(j) for j in range(len(w))]==w and re.match(r'[A-Za-z_]',p.pk(len(w))) and p.pk(len(w)+1) in('=',';','(','{'):
            p.i+=len(w); return ty
    p.i=k; return None
def block(p,end):
    r=[]
    while p.i<len(p.t) and p.pk()!=end and not re.match(r'#(else|endif)',p.pk()):
        g=stmt(p)
        if g and g[0]=='GUARD':
            r.append('SGuard %s %s %s %s'%(q(g[1]),q(g[2]),g[3],lst(block(p,end)))); break
        r+=g
    return r
def body(p):
    if p.pk()=='{':
        p.nx(); b=block(p,'}'); p.need('}'); return b
    return stmt(p)
OPS={'+=':'OAdd','-=':'OSub','&=':'OAnd','|=':'OOr','^=':'OXor'}
def stmt(p):
    c=p.c; s=p.pk()
    if s.startswith('#'):
        m=re.match(r'#if (.*)',s)
        if not m: die(c.file,p.ln(),s)
        p.nx(); b1=block(p,None); b2=[]
        if p.pk()=='#else': p.nx(); b2=block(p,None)
        if not p.pk().startswith('#endif'): die(c.file,p.ln(),'endif expected',p.pk())
        p.nx()
        return ['SIf (ETpl %s) %s %s'%(q(m.group(1)),lst(b1),lst(b2))]
    if s==';': p.nx(); return []
    if s=='{': return body(p)
    if s in('static_assert','BOOST_ASSERT'):
        p.nx(); p.i=close(p.t,p.i)+1; p.need(';'); return []
    if s=='BOOST_VERIFY':
        p.nx(); e=p.paren(); p.need(';'); return ['SDo (%s)'%e]
    if s=='return':
        p.nx()
        if p.pk()==';': p.nx(); return ['SReturnVoid']
        e=p.expr(); p.need(';'); return ['SReturn (%s)'%e]
    if s=='break': p.nx(); p.need(';'); return ['SBreak']
    if s=='goto': p.nx(); l=p.nx(); p.need(';'); return ['SGoto '+q(l)]
    if re.match(r'[A-Za-z_]\w*$',s) and p.pk(1)==':' : p.i+=2; return ['SLabel '+q(s)]
    if s=='while':
        p.nx(); e=p.paren(); b=body(p); return ['SWhile (%s) %s'%(e,lst(b))]
    if s=='do':
        p.nx(); b=body(p); p.need('while'); e=p.paren(); p.need(';'); return ['SDoWhile %s (%s)'%(lst(b),e)]
    if s=='for':
        p.nx(); p.need('(')
        for w in 'unsigned int i = 0u ; i <'.split(): p.need(w)
        e=p.expr(8)
        for w in '; ++ i )'.split(): p.need(w)
        b=body(p)
        return ['SFor (%s) %s'%(e,lst(b))]
    if s in('if','BOOST_IF_CONSTEXPR'):
        p.nx(); e=p.paren(); b1=body(p); b2=[]
        if p.pk()=='else': p.nx(); b2=body(p)
        return ['SIf (%s) %s %s'%(e,lst(b1),lst(b2))]
    if s in('scoped_lock','scoped_wait_state') and p.pk(2)=='(':
        cl=p.nx(); x=p.nx(); a=p.args(); p.need(';'); c.vars.add(x)
        return ['GUARD',cl,x,lst([p.arg(y,None,0) for y in a])]
    # the storage under another name
    w=[x.s for x in p.t[p.i:p.i+13]]
    for pre in('storage_type & s = const_cast < storage_type & > ( storage ) ;','storage_type const & s = const_cast < storage_type const & > ( storage ) ;'):
        v=pre.split()
        if [x.s for x in p.t[p.i:p.i+len(v)]]==v: p.i+=len(v); c.alias='s'; return []
    # D/lock_pool.hpp: what malloc aligns to depends on the platform
    v='constexpr std :: size_t malloc_alignment = sizeof ( void * ) >= 8u ? 16u : 8u ;'.split()
    if [x.s for x in p.t[p.i:p.i+len(v)]]==v: p.i+=len(v); c.vars.add('malloc_alignment'); return ['SInit TO "malloc_alignment" (ETpl "malloc_alignment")']
    if TIMED and s=='futex_timespec' and p.pk(1)=='ts':
        p.i+=2; c.vars.add('ts')
        if p.pk()=='{': p.nx(); p.need('}'); p.need(';'); return ['SInit TO "ts.tv_sec" (ENum 0)','SInit TO "ts.tv_nsec" (ENum 0)']
        e=p.paren(); p.need(';'); return ['SInit TO "ts.tv_sec" (ESec (%s))'%e,'SInit TO "ts.tv_nsec" (ENsec (%s))'%e]
    if TIMED and s=='ts' and p.pk(1)=='.' and p.pk(2) in('tv_sec','tv_nsec') and p.pk(3)=='=':
        n=p.pk(2); p.i+=4
        v=[y.s for y in tokens(p.FITS%'ts')]
        if [p.pk(k) for k in range(len(v))]==v: p.i+=len(v); e='ETpl "max tv_sec"'
        else: e=p.expr()
        p.need(';'); return ['SSet "ts.%s" (%s)'%(n,e)]
    ty=decl(p)
    if ty:
        x=p.nx(); c.vars.add(x)
        if p.pk()=='=': p.nx(); e=p.expr(); p.need(';'); return ['SInit %s %s (%s)'%(ty,q(x),e)]
        if p.pk()=='(': e=p.paren(); p.need(';'); return ['SInit %s %s (%s)'%(ty,q(x),e)]
        if p.pk()=='{': p.nx(); p.need('}'); p.need(';'); return ['SInit %s %s (ENum 0)'%(ty,q(x))]
        p.need(';'); return ['SDecl %s %s'%(ty,q(x))]
    if s in('++','--') and p.pk(1)=='m_waiter_count' and p.pk(2)==';':
        p.i+=3; return ['SCount '+('OAdd' if s=='++' else 'OSub')]
    if re.match(r'[A-Za-z_]\w*$',s) and p.pk(1) in list(OPS)+['=']:
        x=p.nx(); o=p.nx(); e=p.expr(); p.need(';')
        if x==c.alias: return ['SStore (%s)'%e] if o=='=' else ['SStoreOp %s (%s)'%(OPS[o],e)]
        if x not in c.vars: die(c.file,p.ln(),'unknown variable',x)
        return ['SSet %s (%s)'%(q(x),e)] if o=='=' else ['SOp %s %s (%s)'%(q(x),OPS[o],e)]
    e=p.expr()
    if e=='EStor' and p.pk()=='=':
        p.nx(); e=p.expr(); p.need(';'); return ['SStore (%s)'%e]
    p.need(';'); return ['SDo (%s)'%e]
# ---- tables ------------------------------------------------------------------------------------------------------
def params(f,c):
    r=[]; tag=None
    for k,a in enumerate(split(f.params)):
        s=[x.s for x in a]
        if s[:2]==['std','::'] and s[2] in('true_type','false_type'): tag=s[2]; continue
        if TIMED and s[0] in('futex_wait_fallback','futex_wait_clock'): tag='true_type' if s[0]=='futex_wait_clock' else 'false_type'; continue
        if 'storage_type' in s and 'volatile' in s and '&' in s:
            if k!=0: die(f.file,f.ln,'storage parameter')
            c.loc=s[-1] if s[-1]=='storage' else None; continue
        if s==['memory_order']: r.append(('',"TO",'false')); continue
        if s==['lock_state','&']: r.append(('','TO','false')); continue
        n=s[-1]
        if not re.match(r'[A-Za-z_]\w*$',n): die(f.file,f.ln,'parameter',s)
        ts=' '.join(x for x in s[:-1] if x!='const')
        ref='true' if ts in('storage_type &','bool &') else 'false'
        ty='TS' if ts in('storage_type','storage_type &') else 'TO'
        if ty=='TO' and ts not in('memory_order','value_type','unsigned int','bool &','void *','volatile void *','lock_state &','clockid_t','timespec &','std :: chrono :: nanoseconds',
            'atomics :: detail :: uintptr_t','typename Clock :: time_point','std :: chrono :: time_point < Clock , Duration >','std :: chrono :: duration < Rep , Period >'):
            die(f.file,f.ln,'type of parameter',ts)
        r.append((n,ty,ref)); c.vars.add(n)
    return r,tag
def fn(f,consts):
    c=F(); c.file=f.file; c.cls=f.cls; c.consts=consts; c.loc=None; c.alias=None; c.vars=set()
    ps,tag=params(f,c); pre=[]
    if f.cls in('scoped_lock','scoped_wait_state'): c.vars|={'m_lock','m_wait_state','base'}
    tail=[x.s for x in f.tail]
    if ':' in tail:   # the base class is constructed first
        k=tail.index(':')
        if tail[k+1:]!='scoped_lock < Alignment , true > ( addr )'.split(): die(f.file,f.ln,'initialiser',tail)
        pre=['SSet "base" (ECall "new scoped_lock< Alignment, true >" [AVal (EVar "addr")])']
    p=P(f.body,c); b=block(p,None)
    if p.i!=len(p.t): die(f.file,p.ln(),'after the body')
    n=f.name+('/true' if tag=='true_type' else '/false' if tag else '')
    return '  {| pf_name := %s; pf_cond := %s; pf_params := %s; pf_lines := %s;\n     pf_body := %s |}'%(q(n),
      lst(['(%s, %s)'%(q(x),str(y).lower()) for x,y in f.cond]),lst(['(%s, %s, %s)'%(q(x),y,z) for x,y,z in ps]),
      q('%s %d-%d'%(f.file.replace(D,'D/').replace('src/lock_pool.cpp','S'),f.ln,f.end)),lst(pre+b))
print('(** Generated by tools/extract_pool.py from src/lock_pool.cpp and include/boost/atomic/detail: do not edit.\n    Each entry cites the file and lines of its function; S is src/lock_pool.cpp. *)')
print('From Coq Require Import ZArith List String.\nFrom Verif Require Import Order PoolText.\nImport ListNotations.\nLocal Open Scope string_scope.\nLocal Open Scope Z_scope.\n')
cache={}
for file,cls,sec,name,names in TABLES:
    if file not in cache: cache[file]=functions(file)
    fs,consts=cache[file]
    fs=[f for f in fs if f.cls==cls and f.sec==sec]
    if names is not None:
        want=names.split()
        for w in want:
            if not any(f.name==w for f in fs): die(name,'no function',w,[f.name for f in fs])
        fs=[f for f in fs if f.name in want]
    if not fs: die('empty table',name)
    print('(** %s%s *)\nDefinition %s_fns : list pfn := [\n%s\n].\n'%(cls or 'functions',' in '+file,name,';\n'.join(fn(f,consts) for f in fs)))
