# slopes of the double-and-add computation of (n-1)G on a short Weierstrass curve: python3 genorder.py name p a gx gy n
import sys
name=sys.argv[1]; p,a,gx,gy,n=[int(t,0) for t in sys.argv[2:7]]
def inv(x): return pow(x,p-2,p)
x,y=gx,gy
out=[]
for b in bin(n-1)[3:]:
    l=(3*x*x+a)*inv(2*y)%p; out.append(('false',l)); x3=(l*l-2*x)%p; x,y=x3,(l*(x-x3)-y)%p
    if b=='1':
        l=(gy-y)*inv(gx-x)%p; out.append(('true',l)); x3=(l*l-x-gx)%p; x,y=x3,(l*(x-x3)-y)%p
assert x==gx and (y+gy)%p==0
print('(** Slopes of the computation of (n-1)G (generated by /verif/tools/genorder.py). *)\nFrom Coq Require Import ZArith List.\nImport ListNotations.\nOpen Scope Z_scope.\nDefinition slopes_%s : list (bool * Z) := ['%name+';\n'.join('(%s, %s)'%(f,hex(l)) for f,l in out)+'].')
