"""Generates rocq/theories/Model/WindowTables.v from the headers under curves/params."""
import re, os
A='/repo/include/nil/crypto3/algebra/curves/params/'
out=['(** curves/params/{multiexp,wnaf}/*.hpp, extracted by tools/window_tables.py. *)',
'From Coq Require Import NArith List.','Import ListNotations.','Local Open Scope N_scope.','']
names={'multiexp':[], 'wnaf':[]}
for kind,member in (('multiexp','fixed_base_exp_window_table'),('wnaf','wnaf_window_table')):
    for f in sorted(os.listdir(A+kind)):
        s=open(A+kind+'/'+f).read()
        clean=re.sub(r'//[^\n]*|/\*.*?\*/',lambda m:re.sub(r'[^\n]',' ',m.group(0)),s,flags=re.S)
        for m in re.finditer(r'struct (?:multiexp|wnaf)_params<typename (\w+)<(\d+)>::(g[12])_type<>>\s*\{(.*?)\};\s*\}',clean,re.S):
            body=m.group(4)
            mm=re.search(member+r'\s*=\s*\{(.*)',body,re.S)
            l0=clean.count('\n',0,m.start(4)+mm.start())+1; l1=clean.count('\n',0,m.end(4))+1
            vals=[x.strip() for x in mm.group(1).split(',') if x.strip()]
            n='%s_%s_%s_%s'%(kind,m.group(1),m.group(2),m.group(3)); names[kind].append(n)
            out.append('(** params/%s/%s:%d-%d *)'%(kind,f,l0,l1))
            out.append('Definition %s : list N := [%s].'%(n,'; '.join(vals)))
for k in names: out.append('Definition %s_tables : list (list N) := [%s].'%(k,'; '.join(names[k])))
open('/verif/rocq/theories/Model/WindowTables.v','w').write('\n'.join(out)+'\n')
