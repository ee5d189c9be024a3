"""Generate rocq/theories/Model/ArithmeticParams.v from fields/arithmetic_params/*.hpp."""
import re, glob, os
A = '/repo/include/nil/crypto3/algebra/fields/arithmetic_params/'
VERSION = {'alt_bn128': '254', 'bn128': '254', 'edwards': '183'}
names, exts, lines = [], [], []

def blank(m): return re.sub(r'[^\n]', ' ', m.group(0))

for f in sorted(glob.glob(A + '*.hpp')):
    base = os.path.basename(f)
    if base.startswith('dsa') or base == 'ed25519.hpp': continue
    s = re.sub(r'/\*.*?\*/|//[^\n]*', blank, open(f).read(), flags=re.S)
    for m in re.finditer(r'struct arithmetic_params<(.*?)>\s*:\s*public params<(.*?)>\s*\{(.*?)\n                \};', s, re.S):
        arg, pol, body = m.groups()
        d = {}
        for c in re.finditer(r'constexpr static const ([\w:<>, ]+?)\s+(\w+)\s*=\s*([^;]*);', body):
            v = re.sub(r'_cppui_modular\d+', '', c.group(3))
            nums = re.findall(r'(?<!\w)(0[xX][0-9a-fA-F]+|\d+)', v)
            if nums: d[c.group(2)] = nums
        l0 = s[:m.start()].count('\n') + 1; l1 = s[:m.end()].count('\n') + 1
        fam = re.sub(r'<Version>', '<' + VERSION.get(base[:-4], '') + '>', pol)
        key = re.sub(r'[<>]+', '_', fam).strip('_')
        opt = lambda k: '(Some %s)' % d[k][0].replace('0X', '0x') if k in d else 'None'
        raw = lambda k: d[k][0].replace('0X', '0x')
        cite = '(* fields/arithmetic_params/%s:%d-%d *)' % (base, l0, l1)
        if arg.startswith('fp2') or arg.startswith('fp3'):
            n = key.replace('_base_field', '_' + arg[:3]) + '_arith'
            lst = lambda k: '[' + '; '.join(d[k]) + ']'
            lines.append('%s\nDefinition %s : ext_arith := {|\n  x_p := %s_modulus; x_n := %s;\n  x_s := %s;\n  x_t := %s;\n  x_tm1h := %s;\n  x_nqr := %s;\n  x_nqr_to_t := %s;\n  x_order := %s;\n  x_half := %s |}.'
                % (cite, n, key, arg[2], raw('s'), raw('t'), raw('t_minus_1_over_2'), lst('nqr'), lst('nqr_to_t'), opt('group_order'), opt('group_order_minus_one_half')))
            exts.append(n)
        else:
            n = key + '_arith'
            lines.append('%s\nDefinition %s : arith := {|\n  a_p := %s_modulus; a_s := %s;\n  a_t := %s;\n  a_tm1h := %s;\n  a_arith := %s; a_geom := %s; a_mult := %s;\n  a_root := %s;\n  a_nqr := %s;\n  a_nqr_to_t := %s;\n  a_R2 := %s;\n  a_R3 := %s;\n  a_order := %s;\n  a_half := %s |}.'
                % (cite, n, key, raw('s'), opt('t'), opt('t_minus_1_over_2'), raw('arithmetic_generator'), raw('geometric_generator'), raw('multiplicative_generator'), raw('root_of_unity'), opt('nqr'), opt('nqr_to_t'), opt('Rsquared'), opt('Rcubed'), opt('group_order'), opt('group_order_minus_one_half')))
            names.append(n)
dsa, dn = [], []
for f in ('dsa_botan', 'dsa_jce'):
    s = re.sub(r'/\*.*?\*/|//[^\n]*', blank, open(A + f + '.hpp').read(), flags=re.S)
    for m in re.finditer(r'struct arithmetic_params<(.*?)>\s*:\s*public params<(.*?)>\s*\{(.*?)\n                \};', s, re.S):
        bits = re.search(r'<(\w+)>', m.group(1)).group(1).replace('Version', '1024')
        g = re.search(r'mul_generator\s*=\s*(0x\w+?)_', m.group(3)).group(1)
        q = re.search(r'group_order\s*=\s*(0x\w+?)_', m.group(3)).group(1)
        l0 = s[:m.start()].count('\n') + 1; l1 = s[:m.end()].count('\n') + 1
        n = '%s_%s_group' % (f, bits)
        dsa.append('(* fields/arithmetic_params/%s.hpp:%d-%d *)\nDefinition %s : dl_group := {|\n  d_p := %s_%s_modulus;\n  d_g := %s;\n  d_q := %s |}.' % (f, l0, l1, n, f, bits, g, q))
        dn.append(n)
head = '''(** The constants of A/fields/arithmetic_params/*.hpp (generated by
    tools/arith_params.py).

    A field that a header does not ship is None.  The headers of bn128, edwards and
    dsa_jce are templates over Version with the same literals for every Version;
    they are instantiated at the one Version that has a field (254, 183, 1024).
    ed25519.hpp ships one member and is the definition
    ed25519_multiplicative_generator. *)
From Coq Require Import ZArith List.
From Verif Require Import Model.FieldParams.
Import ListNotations.
Local Open Scope Z_scope.

(** arithmetic_params<F> of a prime field; every member is a literal of the header
    except a_p, the modulus inherited from params<F> (fields/params.hpp:37-52) *)
Record arith := { a_p : Z; a_s : Z; a_t : option Z; a_tm1h : option Z;
  a_arith : Z; a_geom : Z; a_mult : Z; a_root : Z; a_nqr : option Z; a_nqr_to_t : option Z;
  a_R2 : option Z; a_R3 : option Z; a_order : option Z; a_half : option Z }.
(** arithmetic_params<fp2<F>> and arithmetic_params<fp3<F>>; x_n is the degree *)
Record ext_arith := { x_p : Z; x_n : Z; x_s : Z; x_t : Z; x_tm1h : Z;
  x_nqr : list Z; x_nqr_to_t : list Z; x_order : option Z; x_half : option Z }.
(** arithmetic_params of the DSA groups: mul_generator and group_order *)
Record dl_group := { d_p : Z; d_g : Z; d_q : Z }.
'''
o = head + '\n' + '\n'.join(lines) + '\n\n' + '\n'.join(dsa) + '\n\n'
o += '(* fields/arithmetic_params/ed25519.hpp:42-53; ed25519 is curve25519_base_field\n   (fields/curve25519/base_field.hpp:89) *)\nDefinition ed25519_multiplicative_generator : Z := 0x02.\n\n'
o += '(** every prime-field specialisation *)\nDefinition shipped_arith : list arith := [\n  ' + ';\n  '.join(names) + '].\n'
o += '(** every extension-field specialisation *)\nDefinition shipped_ext_arith : list ext_arith := [\n  ' + ';\n  '.join(exts) + '].\n'
o += '(** every discrete-logarithm group *)\nDefinition shipped_dl_groups : list dl_group := [' + '; '.join(dn) + '].\n'
open('/verif/rocq/theories/Model/ArithmeticParams.v', 'w').write(o)
