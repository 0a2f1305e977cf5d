#!/usr/bin/env python3
"""Generates rocq/theories/Model/Roms.v from /repo/src/roms/*.rs (transcription of the constants)."""
import re,glob,os,sys
D='/repo/src/roms/'
def parse(f):
    s=open(f).read()
    s=re.sub(r'//[^\n]*','',s)
    r={}
    for m in re.finditer(r'pub const (\w+): ([^=]+?)\s*=\s*(.*?);\n',s,re.S):
        n,t,v=m.group(1),m.group(2),m.group(3)
        t=t.strip(); v=v.strip()
        if t=='[Chunk; NLEN]':
            if v.startswith('[0; NLEN'): r[n]=None; continue
            r[n]=[int(x,0) for x in v.strip('[]').split(',') if x.strip()]
        elif t in('usize','isize','Chunk'):
            try: r[n]=int(v,0)
            except ValueError: pass
        else: r[n]=v
    return r
def roms():
    o=[]
    for f in sorted(glob.glob(D+'rom_*.rs')):
        name=os.path.basename(f)[4:-3]
        r=parse(f); r['name']=name; r['CHUNK']=int(name.split('_')[-1]); o.append(r)
    return o
def hexl(l): return '['+'; '.join(('0x%x'%x) if x>=0 else '(%d)'%x for x in l)+']'
def z(x): return '%d'%x if x>=0 else '(%d)'%x
if __name__=='__main__':
    R=roms()
    out=[]
    out.append('(** GENERATED by tools/roms.py from /repo/src/roms/rom_*.rs: transcription of the constants. Do not edit. *)')
    out.append('From Verif Require Import Base.Word Model.Big.')
    out.append('''
Inductive modtype := NotSpecial | PseudoMersenne | MontgomeryFriendly | GeneralisedMersenne.  (* types.rs *)
Inductive curvetype := Edwards | Weierstrass | Montgomery.                                     (* types.rs *)
Record rom := mkrom { r_cfg : cfg; r_MODULUS : list Z; r_R2MODP : list Z; r_MCONST : Z; r_MODBITS : Z; r_MOD8 : Z;
  r_MODTYPE : modtype; r_SH : Z; r_CURVETYPE : curvetype; r_CURVE_A : Z; r_CURVE_B_I : Z; r_CURVE_B : list Z;
  r_ORDER : list Z; r_GX : list Z; r_GY : list Z; r_COF_I : Z; r_COF : list Z }.
''')
    names=[];cf=[]
    for r in R:
        c='mkcfg %d %d %d'%(r['CHUNK'],r['BASEBITS'],r['MODBYTES'])
        cf.append(r['name'])
        out.append('(* /repo/src/roms/rom_%s.rs *)'%r['name'])
        out.append('Definition cfg_%s : cfg := %s.'%(r['name'],c))
        if 'MODULUS' in r:
            names.append(r['name'])
            out.append('Definition rom_%s : rom := mkrom cfg_%s\n  %s\n  %s\n  0x%x %d %d %s %d %s %s %s\n  %s\n  %s\n  %s\n  %s\n  %s\n  %s.'%(
              r['name'],r['name'],hexl(r['MODULUS']),hexl(r['R2MODP']),r['MCONST'],r['MODBITS'],r['MOD8'],r['MODTYPE'].split('::')[1],r['SH'],
              r['CURVETYPE'].split('::')[1],z(r['CURVE_A']),z(r['CURVE_B_I']),hexl(r['CURVE_B']),hexl(r['CURVE_ORDER']),hexl(r['CURVE_GX']),hexl(r['CURVE_GY']),z(r['CURVE_COF_I']),hexl(r['CURVE_COF'])))
    out.append('Definition all_cfgs : list cfg := [%s].'%'; '.join('cfg_'+n for n in cf))
    out.append('Definition all_roms : list rom := [%s].'%'; '.join('rom_'+n for n in names))
    open(os.path.join(os.path.dirname(os.path.abspath(__file__)),'../rocq/theories/Model/Roms.v'),'w').write('\n'.join(out)+'\n')
