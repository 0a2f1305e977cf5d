import json,glob,os,sys
names=sys.argv[1:]
o=['(** Certificates for the field moduli and group orders of the ROMs (generated by /verif/tools/genprimes.py from factorisations of N-1). *)',
'From Verif Require Import Proof.NumTheory Proof.Pocklington.','From Coq Require Import ZArith Znumtheory List.','Import ListNotations.','Open Scope Z_scope.','']
for n in names:
    c=json.load(open(f'/verif/tools/primes/cert_{n}.json'))
    o.append(f'Definition cert_{n} : list cert := ['+';\n  '.join('(%d, %d, [%s])'%(N,a,'; '.join('(%d, %d)'%(q,k) for q,k in l)) for N,a,l in c)+'].')
    o.append(f'Definition {n} : Z := {c[-1][0]}.')
    o.append(f'Theorem prime_{n} : prime {n}.')
    o.append(f'Proof. apply (chain_prime cert_{n}); [vm_cast_no_check (eq_refl true)|]. cbn [map cert_{n} fst In]. unfold {n}. tauto. Qed.')
    o.append('')
print('\n'.join(o))
