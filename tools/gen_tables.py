#!/usr/bin/env python3
"""Transcribes the literal tables of /repo/sun_phy into Gallina (reads the source as text with `ast`;
nothing from the repository is executed).  Output: rocq/theories/Tables.v"""
import ast, sys
R='/repo/sun_phy/'
def mod(path): return ast.parse(open(R+path).read())
def assigns(tree):
    d={}
    for n in tree.body:
        if isinstance(n,ast.Assign) and isinstance(n.targets[0],ast.Name):
            d[n.targets[0].id]=n
    return d
def num(n):
    if isinstance(n,ast.UnaryOp): return -num(n.operand)
    return n.value
def lst(n): return [lst(x) if isinstance(x,ast.List) else num(x) for x in n.elts]
def z(v): return f"({v})" if v<0 else str(v)
def zl(l): return "[" + "; ".join(z(x) for x in l) + "]"
out=[]
def emit(s): out.append(s)
emit('(** * Literal tables of sun_phy, generated by tools/gen_tables.py (do not edit). *)')
emit('From Verif Require Import Py.')
m=assigns(mod('mr_ofdm/mr_ofdm_modulator.py'))
F='mr_ofdm_modulator.py'
def cite(f,n): return f'{f}:{n.lineno}-{n.end_lineno}'
for i in range(1,5):
    n=m[f'PILOTS_INDICES_OPTION_{i}']
    rows=lst(n.value.value.args[0])    # np.array([...]).T
    assert n.value.attr=='T'
    emit(f'(** {cite(F,n)}: one list per pilot set (column of the transposed array). *)')
    emit(f'Definition PILOTS_INDICES_OPTION_{i} : list (list Z) := [\n  '+";\n  ".join(zl(r) for r in rows)+"].")
for i in range(1,5):
    n=m[f'LTF_{i}']
    emit(f'(** {cite(F,n)} *)')
    emit(f'Definition LTF_{i} : list Z := {zl(lst(n.value.args[0]))}.')
def intdict(n): return {num(k):v for k,v in zip(n.value.keys,n.value.values)}
for name in ['FFT_SIZE','N_BPSC','ACTIVE_TONES','DATA_TONES','FREQUENCY_SPREADING','LOWEST_MCS_VALUE']:
    n=m[name]; d=intdict(n)
    emit(f'(** {cite(F,n)} *)')
    emit(f'Definition {name} : list (Z * Z) := ['+"; ".join(f'({k}, {z(num(v))})' for k,v in d.items())+"].")
n=m['RATE']; emit(f'(** {cite(F,n)} *)')
emit('Definition RATE : list (Z * string) := ['+"; ".join(f'({k}, "{v.value}"%string)' for k,v in intdict(n).items())+"].")
n=m['MODULATION_AND_CODING_SCHEME']; emit(f'(** {cite(F,n)} *)')
emit('Definition MODULATION_AND_CODING_SCHEME : list (Z * string) := ['+"; ".join(f'({k}, "{v.value}"%string)' for k,v in intdict(n).items())+"].")
n=m['SCRAMBLING_SEED']; emit(f'(** {cite(F,n)} *)')
emit('Definition SCRAMBLING_SEED : list (Z * Z) := ['+"; ".join(f'({k}, {int(v.args[0].value,2)}) (* {v.args[0].value} *)' for k,v in intdict(n).items())+"].")
n=m['VALID_MCS_OFDM_COMBINATIONS']; emit(f'(** {cite(F,n)} *)')
emit('Definition VALID_MCS_OFDM_COMBINATIONS : list (list bool) := ['+"; ".join("["+"; ".join(str(x.value).lower() for x in r.elts)+"]" for r in n.value.elts)+"].")
n=m['PHR_N_SYMBOLS']; emit(f'(** {cite(F,n)} *)')
emit('Definition PHR_N_SYMBOLS : list (Z * list (Z * Z)) := ['+"; ".join(f'({num(k)}, ['+"; ".join(f'({num(a)}, {num(b)})' for a,b in zip(v.keys,v.values))+'])' for k,v in zip(n.value.keys,n.value.values))+"].")
# STF index lists: statements  STF_OPTION_i[np.array([...])+...] = +-np.sqrt(a/b)
tree=mod('mr_ofdm/mr_ofdm_modulator.py'); stf={1:[],2:[],3:[],4:[]}
for n in tree.body:
    if isinstance(n,ast.Assign) and isinstance(n.targets[0],ast.Subscript) and isinstance(n.targets[0].value,ast.Name) and n.targets[0].value.id.startswith('STF_OPTION_'):
        i=int(n.targets[0].value.id[-1]); sl=n.targets[0].slice
        if isinstance(sl,ast.Index): sl=sl.value
        idx=lst(sl.left.args[0]); v=n.value; s=1
        if isinstance(v,ast.UnaryOp): s=-1; v=v.operand
        a,b=num(v.args[0].left),num(v.args[0].right)
        stf[i].append((idx,s,a,b,cite(F,n)))
for i in range(1,5):
    emit(f'(** {", ".join(t[4] for t in stf[i])}: (tone indices relative to DC, sign, (a, b)) meaning value sign*sqrt(a/b) *)')
    emit(f'Definition STF_ENTRIES_{i} : list (list Z * Z * (Z * Z)) := ['+"; ".join(f'({zl(t[0])}, {z(t[1])}, ({t[2]}, {t[3]}))' for t in stf[i])+"].")
# ---- FSK
F='mr_fsk_modulator.py'; m=assigns(mod('mr_fsk/mr_fsk_modulator.py'))
n=m['SFD']; emit(f'(** {cite(F,n)}: key ((is 4FSK, phyMRFSKSFD), is_coded) *)')
emit('Definition FSK_SFD : list ((bool * Z * bool) * string) := [\n  '+";\n  ".join(
  f'(({str(k.elts[0].attr=="FSK4").lower()}, {num(k.elts[1])}, {str(k.elts[2].value).lower()}), "{v.args[0].value}"%string)' for k,v in zip(n.value.keys,n.value.values))+"].")
n=m['RSC_TAIL_BITS']; emit(f'(** {cite(F,n)} *)')
emit('Definition RSC_TAIL_BITS : list (Z * list Z) := ['+"; ".join(f'({num(k)}, {zl(lst(v.args[0]))})' for k,v in zip(n.value.keys,n.value.values))+"].")
n=m['NRNSC_TAIL_BITS']; emit(f'(** {cite(F,n)} *)'); emit(f'Definition NRNSC_TAIL_BITS : list Z := {zl(lst(n.value.args[0]))}.')
n=m['PREAMBLE_SEQUENCE']; emit(f'(** {cite(F,n)}: np.tile(seq, n) as (seq, n); first FSK2 then FSK4 *)')
assert [k.attr for k in n.value.keys]==['FSK2','FSK4']
emit('Definition FSK_PREAMBLE_SEQUENCE : list (list Z * Z) := ['+"; ".join(f'({zl(lst(v.args[0].args[0]))}, {num(v.args[1])})' for v in n.value.values)+"].")
# ---- O-QPSK
F='mr_o_qpsk_modulator.py'; m=assigns(mod('mr_o_qpsk/mr_o_qpsk_modulator.py'))
emit('(** class Frequency_band, mr_o_qpsk_modulator.py:22-30: eight distinct members. *)')
emit('Inductive Frequency_band := Band_470MHz | Band_780MHz | Band_868MHz | Band_915MHz | Band_920MHz | Band_917MHz | Band_950MHz | Band_2450MHz.')
emit('Definition band_eqb (a b : Frequency_band) : bool := match a, b with Band_470MHz, Band_470MHz | Band_780MHz, Band_780MHz | Band_868MHz, Band_868MHz | Band_915MHz, Band_915MHz | Band_920MHz, Band_920MHz | Band_917MHz, Band_917MHz | Band_950MHz, Band_950MHz | Band_2450MHz, Band_2450MHz => true | _, _ => false end.')
def bands(n): return [(k.attr,v) for k,v in zip(n.value.keys,n.value.values)]
def S(s): return f'"{s}"%string'
for name,ty,f in [('PREAMPLE_LENGTH','Z',lambda v:z(num(v))),('PILOT_SEQUENCES','string',lambda v:S(v.args[0].value)),('PILOT_SPACING','Z',lambda v:z(num(v))),
   ('MDSSS_SUPPORTED_FREQUENCY_BANDS','bool',lambda v:str(v.value).lower())]:
    n=m[name]; emit(f'(** {cite(F,n)} *)')
    emit(f'Definition {name} : list (Frequency_band * {ty}) := [\n  '+";\n  ".join(f'({k}, {f(v)})' for k,v in bands(n))+"].")
def spread(v):
    if isinstance(v,ast.Tuple): return "["+"; ".join(S(x.value) for x in v.elts)+"]"
    return "["+S(v.value)+"]"
for name in ['SHR_SPREADING','PHR_SPREADING']:
    n=m[name]; emit(f'(** {cite(F,n)}: a plain string is a one-element tuple (see _DSSS) *)')
    emit(f'Definition {name} : list (Frequency_band * list string) := [\n  '+";\n  ".join(f'({k}, {spread(v)})' for k,v in bands(n))+"].")
n=m['PSDU_SPREADING_DSSS']; emit(f'(** {cite(F,n)}: None stands for False *)')
def sp(v): return "None" if (isinstance(v,ast.Constant) and v.value is False) else "Some "+spread(v)
emit('Definition PSDU_SPREADING_DSSS : list (Frequency_band * list (Z * option (list string))) := [\n  '+";\n  ".join(f'({k}, ['+"; ".join(f'({num(a)}, {sp(b)})' for a,b in zip(v.keys,v.values))+'])' for k,v in bands(n))+"].")
n=m['PSDU_BDE_DSSS']; emit(f'(** {cite(F,n)} *)')
emit('Definition PSDU_BDE_DSSS : list (Frequency_band * list (Z * bool)) := [\n  '+";\n  ".join(f'({k}, ['+"; ".join(f'({num(a)}, {str(b.value).lower()})' for a,b in zip(v.keys,v.values))+'])' for k,v in bands(n))+"].")
n=m['PSDU_SPREADING_FACTOR_MDSSS']; emit(f'(** {cite(F,n)}: None stands for "not supported" *)')
def zd(v): return "None" if isinstance(v,ast.Constant) else "Some ["+"; ".join(f'({num(a)}, {num(b)})' for a,b in zip(v.keys,v.values))+"]"
emit('Definition PSDU_SPREADING_FACTOR_MDSSS : list (Frequency_band * option (list (Z * Z))) := [\n  '+";\n  ".join(f'({k}, {zd(v)})' for k,v in bands(n))+"].")
n=m['DATA_RATE']
emit(f'(** {cite(F,n)}: outer key SpreadingMode value (DSSS = 0, MDSSS = 1); None stands for "not supported" *)')
assert [ast.unparse(k) for k in n.value.keys]==['SpreadingMode.DSSS.value','SpreadingMode.MDSSS.value']
emit('Definition DATA_RATE : list (Z * list (Frequency_band * option (list (Z * Z)))) := [\n'+";\n".join(f' ({i}, [\n  '+";\n  ".join(f'({k.attr}, {zd(v)})' for k,v in zip(dd.keys,dd.values))+'])' for i,dd in enumerate(n.value.values))+"].")
n=m['SFD']; emit(f'(** {cite(F,n)} *)'); emit(f'Definition OQPSK_SFD : string := {S(n.value.args[0].value)}.')
n=m['DSSS']; emit(f'(** {cite(F,n)} *)')
emit('Definition DSSS : list (string * list (string * string)) := [\n '+";\n ".join(f'({S(k.value)}, [\n  '+";\n  ".join(f'({S(a.value)}, {S(b.value)})' for a,b in zip(v.keys,v.values))+'])' for k,v in zip(n.value.keys,n.value.values))+"].")
n=m['COVERING_CODE']; emit(f'(** {cite(F,n)}: n -> (DSSS table, key) *)')
emit('Definition COVERING_CODE_KEY : list (Z * (string * string)) := ['+"; ".join(f'({num(k)}, ({S(v.value.slice.value)}, {S(v.slice.value)}))' for k,v in zip(n.value.keys,n.value.values))+"].")
open('/verif/rocq/theories/Tables.v','w').write("\n".join(out)+"\n")
