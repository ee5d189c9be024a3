#!/usr/bin/env python3
"""Generate rocq/theories/Model/DomainParams.v: the constants a, b, x, y of the curve
headers that only list domain parameters, with the fields they name for p and q."""
import re
B = '/repo/include/nil/crypto3/algebra/'
fp = open('/verif/rocq/theories/Model/FieldParams.v').read()
mods = re.findall(r'Definition (\w+_modulus) : Z', fp)
out, names = [], []
for f in ['brainpool_r1', 'frp_v1', 'gost_A', 'sm2p_v1', 'x962_p']:
    s = open(B + f'curves/{f}.hpp').read()
    for m in re.finditer(r'struct (\w+)<(\d+)> \{(.*?)\n                \};', s, re.S):
        n, v, b = m.groups()
        l0 = s[:m.start()].count('\n') + 1
        l1 = s[:m.end()].count('\n') + 1
        fq = re.search(r'fields::(\w+)_fq', b).group(1)
        fr = re.search(r'fields::(\w+)_fr', b).group(1)
        c = {k: re.search(r'integral_type ' + k + r' =\s*(0x[0-9a-fA-F]+)_', b).group(1) for k in 'abxy'}
        pk = [k for k in mods if k.startswith(fq + '_base') and k.endswith(v + '_modulus')][0]
        rk = [k for k in mods if k.startswith(fr + '_scalar') and k.endswith(v + '_modulus')][0]
        names.append(f'{n}_{v}')
        out.append(f'(* curves/{f}.hpp:{l0}-{l1} *)\nDefinition {n}_{v} : sw_curve := mkSW {pk}\n  {c["a"]}\n  {c["b"]}\n'
                   f'  [{c["x"]};\n   {c["y"]}] {rk}.')
nist = []
for k in ['p192', 'p224', 'p384', 'p521']:
    s = open(B + f'curves/{k}.hpp').read()
    m = re.search(r'integral_type p =\s*(0x[0-9a-fA-F]+)_', s)
    l = s[:m.start(1)].count('\n') + 1
    nist.append(f'(* curves/{k}.hpp:{l} *)\nDefinition {k}_p : Z := {m.group(1)}.')
head = '''(** Domain parameters of the curve headers that define no group type of their own or
    name group types missing from the repository (generated by tools/domain_params.py).
    swc_p and swc_r are the moduli of the fields the header names as p and q. *)
From Coq Require Import ZArith List.
From Verif Require Import Model.FieldParams Model.CurveParams.
Import ListNotations.
Local Open Scope Z_scope.

'''
open('/verif/rocq/theories/Model/DomainParams.v', 'w').write(
    head + '\n'.join(out) + '\n\nDefinition domain_curves : list sw_curve := [' + '; '.join(names) + '].\n\n' + '\n'.join(nist) + '\n')
