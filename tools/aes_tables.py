#!/usr/bin/env python3
"""Extracts the constant tables of /repo/src/aes.rs into Model/AesTables.v."""
import re,sys,os
src=open('/repo/src/aes.rs').read()
out=["(** Tables of src/aes.rs:36-174, extracted by tools/aes_tables.py (do not edit). *)","From Verif Require Import Base.Word.",""]
for m in re.finditer(r'const (INCO|PTAB|LTAB|FBSUB|RBSUB|RCO|FTABLE|RTABLE): \[u\d+; (\d+)\] =\s*\[(.*?)\];',src,re.S):
    nums=[int(x.strip(),0) for x in m.group(3).replace('\n',' ').split(',') if x.strip()]
    assert len(nums)==int(m.group(2)),m.group(1)
    ln=src[:m.start()].count('\n')+1
    out.append("(* src/aes.rs:%d *)"%ln)
    body="; ".join(map(str,nums))
    import textwrap
    out.append("Definition %s : list Z :=\n  [%s]."%(m.group(1),"\n   ".join(textwrap.wrap(body,150))))
root=os.path.dirname(os.path.dirname(os.path.abspath(__file__)))
open(root+'/rocq/theories/Model/AesTables.v','w').write("\n".join(out)+"\n")
