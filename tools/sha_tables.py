#!/usr/bin/env python3
# extracts the SHA-2 constants of src/hash{256,384,512}.rs into Model/Sha2Tables.v
import re
out=["(** Generated by tools/sha_tables.py from src/hash256.rs:20-38, src/hash384.rs:20-110, src/hash512.rs:20-110. *)","From Coq Require Import ZArith List.","Import ListNotations.","Open Scope Z_scope.",""]
for n in ("256","384","512"):
    s=open("/repo/src/hash%s.rs"%n).read()
    h=[re.search(r"const HASH%s_H%d: u\d+ = (0x[0-9a-fA-F_]+)"%(n,i),s).group(1).replace("_","") for i in range(8)]
    k=re.search(r"const HASH%s_K: \[u\d+; (\d+)\] = \[(.*?)\];"%n,s,re.S)
    ks=re.findall(r"0x[0-9a-fA-F]+",k.group(2)); assert len(ks)==int(k.group(1))
    out.append("Definition HASH%s_H : list Z := [%s]."%(n,"; ".join(h)))
    out.append("Definition HASH%s_K : list Z := ["%n)
    for i in range(0,len(ks),8): out.append("  "+"; ".join(ks[i:i+8])+(";" if i+8<len(ks) else "]."))
    out.append("")
open("/verif/rocq/theories/Model/Sha2Tables.v","w").write("\n".join(out))
