"""Generates rocq/theories/Model/CurveParams.v: curve coefficients and generators
extracted from the headers under curves/detail."""
import re
A='/repo/include/nil/crypto3/algebra/curves/detail/'
FILES=['secp_r1/256/short_weierstrass_params.hpp','secp_k1/256/short_weierstrass_params.hpp','pallas/params.hpp','vesta/params.hpp',
 'alt_bn128/254/short_weierstrass_params.hpp','bls12/381/short_weierstrass_params.hpp','bls12/377/short_weierstrass_params.hpp',
 'mnt4/298/short_weierstrass_params.hpp','mnt6/298/short_weierstrass_params.hpp','jubjub/params.hpp','babyjubjub/params.hpp',
 'curve25519/params.hpp','edwards/183/edwards_params.hpp']
def blank(m): return re.sub(r'[^\n]',' ',m.group(0))
vals={}
def nums(t):
    t=re.sub(r'<[^>]*>','',t); t=re.sub(r'_cppui_modular\d+','',t)
    t=re.sub(r'(?:typename\s+)?[\w:]*::value_type::one\(\)','1',t)
    return [int(x,0) for x in re.findall(r'(?<!\w)(0x[0-9a-fA-F]+|\d+)(?=u?\b)',t)]
for f in FILES:
    c=open(A+f).read()
    c=re.sub(r'/\*.*?\*/',blank,c,flags=re.S); c=re.sub(r'//[^\n]*',blank,c)
    for m in re.finditer(r'(?:struct|class)\s+(\w+)<([^>]*)>\s*(?::\s*public\s+[\w<>:, ]+?)?\s*\{',c):
        i=m.end();d=1
        while d:
            d+={'{':1,'}':-1}.get(c[i],0); i+=1
        body=c[m.end():i-1]
        for mm in re.finditer(r'static\s+(?:const\s+|constexpr\s+)*[^;={]*?\b(a|b|d|A|B|one_fill|inverted_one_fill|twist)\s*=([^;]*);',body):
            l0=c.count('\n',0,m.end()+mm.start())+1; l1=c.count('\n',0,m.end()+mm.end())+1
            vals[(m.group(1)+'<'+m.group(2)+'>',mm.group(1))]=(f,l0,l1,nums(mm.group(2)),' '.join(mm.group(2).split()))
out=['(** Coefficients and generators of the shipped curves, extracted from A/curves/detail by','    tools/curve_params.py; the records and lists at the end are written by hand. *)',
'From Coq Require Import ZArith List.','From Verif Require Import Model.FieldParams.','Import ListNotations.','Local Open Scope Z_scope.','']
def emit(name,struct,key,n):
    f,l0,l1,v,t=vals[(struct,key)]
    assert len(v)==n,(name,v,t)
    out.append('(** %s:%d-%d *)'%(f,l0,l1))
    if n==1: out.append('Definition %s : Z := 0x%x.'%(name,v[0]))
    else: out.append('Definition %s : list Z := [%s].'%(name,'; '.join('0x%x'%z for z in v)))
SW='forms::short_weierstrass'
for b in (160,192,224,256,384,521):
    emit('secp_r1_%d_a'%b,'secp_r1_params<%d, %s>'%(b,SW),'a',1); emit('secp_r1_%d_b'%b,'secp_r1_params<%d, %s>'%(b,SW),'b',1)
    emit('secp_r1_%d_one'%b,'secp_r1_g1_params<%d, %s>'%(b,SW),'one_fill',2)
for b in (160,192,224,256):
    emit('secp_k1_%d_a'%b,'secp_k1_params<%d, %s>'%(b,SW),'a',1); emit('secp_k1_%d_b'%b,'secp_k1_params<%d, %s>'%(b,SW),'b',1)
    emit('secp_k1_%d_one'%b,'secp_k1_g1_params<%d, %s>'%(b,SW),'one_fill',2)
for c in ('pallas','vesta'):
    emit(c+'_a','%s_params<%s>'%(c,SW),'a',1); emit(c+'_b','%s_params<%s>'%(c,SW),'b',1); emit(c+'_one','%s_g1_params<%s>'%(c,SW),'one_fill',2)
for c,b,n2 in (('alt_bn128',254,4),('bls12',381,4),('bls12',377,4),('mnt4',298,4),('mnt6',298,6)):
    n='%s_%d'%(c,b)
    emit(n+'_a','%s_params<%d, %s>'%(c,b,SW),'a',1); emit(n+'_b','%s_params<%d, %s>'%(c,b,SW),'b',1)
    emit(n+'_g1_one','%s_g1_params<%d, %s>'%(c,b,SW),'one_fill',2)
    emit(n+'_g2_one','%s_g2_params<%d, %s>'%(c,b,SW),'one_fill',n2)
emit('alt_bn128_254_g2_twist','alt_bn128_g2_params<254, %s>'%SW,'twist',2)
for c in ('jubjub','babyjubjub'):
    for k in 'ad': emit(c+'_te_'+k,c+'_params<forms::twisted_edwards>',k,1)
    emit(c+'_te_one',c+'_g1_params<forms::twisted_edwards>','one_fill',2)
    for k in 'AB': emit(c+'_mont_'+k,c+'_params<forms::montgomery>',k,1)
    emit(c+'_mont_one',c+'_g1_params<forms::montgomery>','one_fill',2)
for k in 'ad': emit('curve25519_te_'+k,'curve25519_params<forms::twisted_edwards>',k,1)
emit('curve25519_te_one','curve25519_g1_params<forms::twisted_edwards>','one_fill',2)
for k,K in (('a','A'),('b','B')): emit('curve25519_mont_'+K,'curve25519_params<forms::montgomery>',k,1)
emit('curve25519_mont_one','curve25519_g1_params<forms::montgomery>','one_fill',2)
emit('edwards_183_d','edwards_params<183, forms::edwards>','d',1)
emit('edwards_183_g1_inverted_one','edwards_g1_params<183, forms::edwards>','inverted_one_fill',3)
emit('edwards_183_g2_inverted_one','edwards_g2_params<183, forms::edwards>','inverted_one_fill',9)
emit('edwards_183_g2_twist','edwards_g2_params<183, forms::edwards>','twist',3)
for s in ('bls12_g2_params<381, %s>'%SW,'bls12_g2_params<377, %s>'%SW):
    print(s,vals[(s,'twist')][1:3],vals[(s,'twist')][4])
out.append(open('/verif/tools/curve_params_tail.txt').read())
open('/verif/rocq/theories/Model/CurveParams.v','w').write('\n'.join(out))
