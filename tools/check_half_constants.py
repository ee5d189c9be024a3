# Compares the group_order_minus_one_half literals of Model/Sqrt.v with the headers they cite.
import re,subprocess
A='/repo/include/nil/crypto3/algebra/fields/'
v=open('/verif/rocq/theories/Model/Sqrt.v').read()
mine=re.findall(r'\(\* (fields/\S+?):(\d+)-(\d+) \*\)\nDefinition (\w+) : Z := (0x[0-9A-Fa-f]+)',v)
for f,a,b,name,c in mine:
    L=open('/repo/include/nil/crypto3/algebra/'+f).read().split('\n')
    near=[]
    for i,l in enumerate(L):
        if 'group_order_minus_one_half' in l:
            t=' '.join(L[i:i+4]); m=re.search(r'0x([0-9A-Fa-f]+)',t)
            if m: near.append((i+1,int(m.group(1),16)))
    hit=[i for i,x in near if x==int(c,16)]
    print(name,'cited',a,'source lines',[i for i,_ in near],'MATCH at' if hit else 'MISMATCH',hit)
