# Pocklington certificates for the moduli and group orders of the NIST curves (writes nist_certs.v).
# Needs an ECM factoring program; only the generated certificates matter, Coq checks them.
import sys,math,itertools,functools
src=open('cert.py').read().split("P=0xFFFFFFFE")[0]
exec(src)
P=None
pre={}
_p=partial
def partial(n):
    if n in pre: return set(pre[n]),[]
    return _p(n)
def bases(n,qs):
    for a in range(2,500):
        if pow(a,n-1,n)==1 and all(math.gcd(pow(a,(n-1)//q,n)-1,n)==1 for q in qs): return a
def huff(qs):
    # (product, tree, increasing order is required of the leaves: split the sorted list at the best point)
    @functools.lru_cache(None)
    def go(i,j):
        if j-i==1: return (0,("L",qs[i]))
        best=None
        for m in range(i+1,j):
            l=go(i,m);r=go(m,j)
            c=l[0]+r[0]+1.5*math.prod(qs[i:j]).bit_length()
            if best is None or c<best[0]: best=(c,("N",l[1],r[1]))
        return best
    return go(0,len(qs))
def tcost(c):
    c=tuple(sorted(c))
    return huff(c)[0]+1.5*c[0].bit_length()
def show(t): return "(Leaf %d)"%t[1] if t[0]=="L" else "(Node %s %s)"%(show(t[1]),show(t[2]))
def tree(qs): return show(huff(tuple(qs))[1])
M521=2**521-1
P384=2**384-2**128-2**96+2**32-1; P224=2**224-2**96+1
memo={}
@functools.lru_cache(None)
def primes_of(n): return tuple(sorted(partial(n-1)[0]))
def choose(n):
    """cheapest set of factors: (cost, factors)"""
    if n<10**5: return (math.isqrt(n)*60,())
    if n in memo: return memo[n]
    fs=primes_of(n); k=n.bit_length(); unit=k*k*(0.29 if n in(M521,P384,P224) else 0.9)
    best=None
    for r in range(1,9):
        for c in itertools.combinations(fs,r):
            F=math.prod(c)
            if (F+1)**2>n:
                cost=unit*(((n-1)//F).bit_length()*1.05+tcost(c))
                if best and cost>=best[0]: continue
                try: cost+=sum(choose(q)[0] for q in c)
                except ArithmeticError: continue
                if best is None or cost<best[0]: best=(cost,c)
    if best is None: raise ArithmeticError("fail %d"%n)
    memo[n]=best
    return best
def cert(n):
    if n in known: return
    known[n]=1
    if n<10**5:
        out.append(f"Lemma {name(n)} : prime {n}.\nProof. apply trial_ok_spec. vm_cast_no_check (eq_refl true). Qed.")
        return
    fs=primes_of(n);comp=choose(n)
    print(n.bit_length(),n,fs,comp,file=sys.stderr,flush=True)
    k=n.bit_length()
    red = {M521:"red521",P384:"red384",P224:"red224"}[n] if n in (M521,P384,P224) else f"(barrett {n} {(1<<(2*k))//n} {k-1} {k+1})"
    rsp = {M521:"red521_spec",P384:"red384_spec",P224:"red224_spec"}[n] if n in (M521,P384,P224) else f"(fun x => barrett_spec {n} {(1<<(2*k))//n} {k-1} {k+1} x eq_refl)"
    qs=choose(n)[1]
    for q in qs: cert(q)
    a=bases(n,qs); assert a
    if len(qs)==1:
        q=qs[0]
        out.append(f"Lemma {name(n)} : prime {n}.\nProof. apply (pock1_prime {red} {n} {a} {q} {(n-1)//q} {rsp} {name(q)} eq_refl). vm_cast_no_check (eq_refl true). Qed.")
    else:
        F=math.prod(qs)
        pf="(Forall_nil _)"
        for q in reversed(qs): pf=f"(Forall_cons {q} {name(q)} {pf})"
        out.append(f"Lemma {name(n)} : prime {n}.\nProof. apply (pockn_prime {red} {n} {a} {tree(qs)} {(n-1)//F} {rsp} {pf} eq_refl eq_refl). vm_cast_no_check (eq_refl true). Qed.")
P256=2**256-2**224+2**192+2**96-1; P384=2**384-2**128-2**96+2**32-1; P224=2**224-2**96+1
N256=0xffffffff00000000ffffffffffffffffbce6faada7179e84f3b9cac2fc632551
N224=0xffffffffffffffffffffffffffff16a2e0b8f03e13dd29455c5c2a3d
N384=0xffffffffffffffffffffffffffffffffffffffffffffffffc7634d81f4372ddf581a0db248b0a77aecec196accc52973
N521=0x1fffffffffffffffffffffffffffffffffffffffffffffffffffffffffffffffffa51868783bf2f966b7fcc0148f709a5d03bb5c9b8899c47aebb6fb71e91386409
pre[P224-1]={2,3,5,17,257,641,65537,274177,6700417,67280421310721}
pre[P256-1]={2,3,5,17,257,641,1531,65537,490463,6700417,835945042244614951780389953367877943453916927241}
pre[P384-1]={2,19,67,807145746439,19173790298027098165721053155794528970226934547887232785722672956982046098136719667167519737147526097}
pre[M521-1]={173308343918874810521923841,145295143558111,108140989558681,65427463921,2400573761,308761441,34110701,7623851,5746001}
pre[N384-1]={2,3,7,13,1124679999981664229965379347,3055465788140352002733946906144561090641249606160407884365391979704929268480326390471}
try:
    for n in [int(x,0) if x.isdigit() else globals()[x] for x in sys.argv[1:]]:
        m=len(out)
        try: cert(n)
        except ArithmeticError as e: print("FAIL",n,e,file=sys.stderr); del out[m:]
finally:
    open("/tmp/w/nist_certs.v","w").write("\n".join(out)+"\n")
