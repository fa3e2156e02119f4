import random,math,subprocess,sys
def isp(n):
    if n<2: return False
    for q in (2,3,5,7,11,13,17,19,23,29,31,37):
        if n%q==0: return n==q
    d=n-1;s=0
    while d%2==0: d//=2;s+=1
    for a in (2,3,5,7,11,13,17,19,23,29,31,37):
        x=pow(a,d,n)
        if x in(1,n-1): continue
        for _ in range(s-1):
            x=x*x%n
            if x==n-1: break
        else: return False
    return True
def rho(n,limit=3000000):
    if n%2==0: return 2
    c=random.randrange(1,n); y=random.randrange(n); g=r=q=1; m=256; it=0
    while g==1:
        x=y
        for _ in range(r): y=(y*y+c)%n
        k=0
        while k<r and g==1:
            ys=y
            for _ in range(min(m,r-k)):
                y=(y*y+c)%n; q=q*abs(x-y)%n
            g=math.gcd(q,n); k+=m
            it+=m
            if it>limit: return None
        r*=2
    if g==n:
        g=1
        while g==1:
            ys=(ys*ys+c)%n; g=math.gcd(abs(x-ys),n)
    return g if g!=n else None
def ecm(m):
    for B1,cv in((2000,30),(11000,90),(50000,240),(250000,600),(1000000,1500)):
        o=subprocess.run(["/tmp/ecm/ecm",str(m),str(B1),str(random.randrange(10**6)),str(cv)],capture_output=True,text=True).stdout
        if o.startswith("FOUND"): return int(o.split()[1])
    return None
def partial(n):
    """return set of primes found, unfactored composite parts"""
    fs=set(); comp=[]
    st=[n]
    for q in range(2,20000):
        if st[0]%q==0 and isp(q):
            fs.add(q)
            while st[0]%q==0: st[0]//=q
    while st:
        m=st.pop()
        if m==1: continue
        if isp(m): fs.add(m); continue
        g=rho(m,200000) or ecm(m)
        if g is None: comp.append(m); continue
        st+= [g,m//g]
    return fs,comp
known={}
out=[]
def name(n): return "prime_%d"%n
def cert(n):
    if n in known: return
    known[n]=1
    if n<10**5:
        out.append(f"Lemma {name(n)} : prime {n}.\nProof. apply trial_ok_spec. vm_cast_no_check (eq_refl true). Qed.")
        return
    fs,comp=partial(n-1)
    fs=sorted(fs,reverse=True)
    print(n,fs,comp,file=sys.stderr)
    def base(q):
        for a in range(2,200):
            if pow(a,n-1,n)==1 and math.gcd(pow(a,(n-1)//q,n)-1,n)==1: return a
    k=n.bit_length()
    red = "redp" if n==P else f"(barrett {n} {(1<<(2*k))//n} {k-1} {k+1})"
    rsp = "redp_spec" if n==P else f"(fun x => barrett_spec {n} {(1<<(2*k))//n} {k-1} {k+1} x eq_refl)"
    cand=[q for q in fs if (q+1)**2>n]
    if cand:
        q=min(cand); cert(q); a=base(q)
        out.append(f"Lemma {name(n)} : prime {n}.\nProof. apply (pock1_prime {red} {n} {a} {q} {(n-1)//q} {rsp} {name(q)} eq_refl). vm_cast_no_check (eq_refl true). Qed.")
        return
    def bases(q1,q2):
        for a in range(2,200):
            if pow(a,n-1,n)==1 and all(math.gcd(pow(a,(n-1)//q,n)-1,n)==1 for q in (q1,q2)): return a
    best=None
    for i in range(len(fs)):
        for j in range(i):
            if (fs[i]*fs[j]+1)**2>n:
                c=fs[j].bit_length()
                if best is None or c<best[0]: best=(c,fs[j],fs[i])
    if best:
                q1,q2=best[1:]; cert(q1); cert(q2)
                q1,q2=min(q1,q2),max(q1,q2)
                out.append(f"Lemma {name(n)} : prime {n}.\nProof. apply (pock2_prime {red} {n} {bases(q1,q2)} {q1} {q2} {(n-1)//q1//q2} {rsp} {name(q1)} {name(q2)} eq_refl). vm_cast_no_check (eq_refl true). Qed.")
                return
    raise Exception("fail %d %s %s"%(n,fs,comp))
P=0xFFFFFFFEFFFFFFFFFFFFFFFFFFFFFFFFFFFFFFFF00000000FFFFFFFFFFFFFFFF
N=0xFFFFFFFEFFFFFFFFFFFFFFFFFFFFFFFF7203DF6B21C6052B53BBF40939D54123
_p=partial
def partial(n):
    if n==P-1: return {2,43,30223,348253387243,4641351449027,417514796639753,66013261729388519804782124120027},[]
    if n==N-1: return {2,3,7759,14057,1413296869,125197554539772723432468576818475380947471091418362477724521},[]
    return _p(n)
try:
    cert(P); cert(N)
finally:
    open("certs.v","w").write("\n".join(out)+"\n")
