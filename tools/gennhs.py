# generates rocq/theories/Model/NhsTables.v from /repo/src/nhs.rs (ROOTS 38-123, IROOTS 124-212)
import re
s=open('/repo/src/nhs.rs').read()
def tab(n):
    m=re.search(r'const %s: \[i32; 1024\] = \[(.*?)\];'%n,s,re.S)
    v=[int(x,16) for x in re.findall(r'0x[0-9a-fA-F]+',m.group(1))]
    assert len(v)==1024,len(v); return v
o=['(** Tables of src/nhs.rs:38-212 (generated by tools/gennhs.py). *)','From Coq Require Import ZArith List.','Import ListNotations.','Open Scope Z_scope.']
for n in ('ROOTS','IROOTS'):
    v=tab(n)
    o.append('(** nhs.rs: const %s *)'%n)
    o.append('Definition %s : list Z := ['%n)
    for i in range(0,1024,32): o.append('  '+'; '.join(map(str,v[i:i+32]))+(';' if i+32<1024 else '].'))
open('/verif/rocq/theories/Model/NhsTables.v','w').write('\n'.join(o)+'\n')
q=12289;R=2**32
ro,ir=tab('ROOTS'),tab('IROOTS')
Ri=pow(R,-1,q); W=[x*Ri%q for x in ro]
print(W[1]*W[1]%q==q-1, all(W[2*k]**2%q==W[k] and W[2*k+1]**2%q==(-W[k])%q for k in range(1,512)), all(ir[k]*ro[k]%q==R*R%q for k in range(1,1024)), all(0<=x<q for x in ro+ir))
print((0x3001*0xF7002FFF+1)%2**32, R%q==0x2ac8, R*R%q==0x1620, 0xeab*Ri*1024%q, 0x2c2a*Ri*1024*W[1]%q)
