#!/usr/bin/env python3
"""Generates rocq/theories/Vectors.v: the model reproduces the 802.15.4g tables of sun_phy/tests/tables
(regression examples, not properties)."""
import cmath
T = '/repo/sun_phy/tests/tables/'
def bits(name, sl=None):
    v = [int(float(l)) for l in open(T+name+'.csv') if l.strip() and not l.startswith('#')]
    assert all(x in (0,1) for x in v), name
    if sl: v = v[sl]
    return 'bs "' + ''.join(map(str, v)) + '"'
def octets(name):
    v = [int(float(l)) for l in open(T+name+'.csv') if l.strip() and not l.startswith('#')]
    return '[' + '; '.join('x%02x' % x for x in v) + ']'
def gauss(name, n):
    out = []
    for l in open(T+name+'.csv'):
        if l.startswith('#') or not l.strip(): continue
        a, b = map(float, l.split(','))
        out.append('(%d, %d)' % (round(a), round(b)))
    return '[' + '; '.join(out[:n]).replace('-1', '-1') + ']'
def dft_symbols(name):
    d = [complex(*map(float, l.split(','))) for l in open(T+name+'.csv') if not l.startswith('#')][480:]
    out = []
    for b in range(0, len(d), 80):
        x = d[b+16:b+80]
        X = [sum(x[n]*cmath.exp(-2j*cmath.pi*(k-32)*n/64) for n in range(64))/8 for k in range(64)]
        out.append(X)
    return out
def tone(z):
    f = lambda x: '0' if abs(x) < 1e-2 else ('1' if x > 0 else '-1')
    return '(%s, %s)' % (f(z.real), f(z.imag))
o = []
w = o.append
w('''(** * Regression: the model reproduces the tables of 802.15.4g shipped in sun_phy/tests/tables.
    Generated by tools/gen_vectors.py (do not edit).  These are tests of the model, not properties. *)
From Verif Require Import Py MBits MPn9 MRate MFields MModul MOfdm Tables MMrOfdm MFsk MOqpsk.

Definition bs := from_bitstring.
Definition octets_L1 : list byte := %s.
Definition octets_N1 : list byte := %s.
Definition run {S A} (o : res S) (m : SM S A) : option S :=
  match o with Ok s => let '(s', r) := m s in if is_ok r then Some s' else None | Err _ => None end.
Definition out {S A} (o : res S) (m : SM S A) : option A :=
  match o with Ok s => match snd (m s) with Ok a => Some a | _ => None end | Err _ => None end.
Definition attr {S A} (o : option S) (f : S -> option A) : option A := match o with Some s => f s | None => None end.
Definition ends (o : option (list bool)) : option (list bool * list bool) :=
  match o with Some l => Some (firstn 48 l, skipn (length l - 48) l) | None => None end.
Definition sgn (z : Z) : Z := Z.sgn z.
Definition tone_sign (t : tone) : Z * Z :=
  match t with TZero => (0, 0) | TPilot (a, b) => (sgn (Qnum a), sgn (Qnum b)) | TData (a, b) => (sgn a, sgn b) end.
''' % (octets('L.1'), octets('N.1')))
def ex(name, lhs, rhs):
    w('Example %s : %s = %s.\nProof. vm_compute. reflexivity. Qed.\n' % (name, lhs, rhs))
for (p, il, t) in (('L', 'false', ('L.2','L.3','L.4','L.7','L.8','L.9')), ('M', 'true', ('M.1','M.2','M.3','M.6','M.7','M.8'))):
    w('Definition ofdm_%s := mr_ofdm_new (PInt 3) (PInt 2) (PBool %s) (PInt 0).' % (p, il))
    w('Definition ran_%s := run ofdm_%s (m_bytes_symbols (ABytes octets_L1)).' % (p, p))
    for a, n in zip(('header','header_enc','header_int'), t[:3]):
        ex('%s_%s' % (p, a), 'attr ran_%s m_%s' % (p, a), 'Some (%s)' % bits(n))
    for a, n in zip(('pay_scr','pay_enc','pay_int'), t[3:]):
        ex('%s_%s' % (p, a), 'ends (attr ran_%s m_%s)' % (p, a), 'Some (%s, %s)' % (bits(n, slice(0,48)), bits(n, slice(-48,None))))
    w('Definition syms_%s := match out ofdm_%s (m_bytes_symbols (ABytes octets_L1)) with Some (a, b) => map (map tone_sign) (a ++ b) | None => [] end.' % (p, p))
    # subcarriers recovered here by a DFT of the time-domain table (all PHR and payload symbols)
    lit = '[' + ';\n '.join('[' + '; '.join(tone(z) for z in c) + ']' for c in dft_symbols({'L':'L.14','M':'M.11'}[p])) + ']'
    ex('%s_freq' % p, 'syms_%s' % p, lit)
w('Definition oq_N := oqpsk_new Band_470MHz 0 0 10.')
w('Definition ran_N := run oq_N (q_bytesToChips Wrapping (ABytes octets_N1)).')
w('Definition qattr (n : string) := attr ran_N (fun s => assoc String.eqb n (q_mem s)).')
ex('N_shr', 'rbind oq_N q_SHR', 'Ok (%s)' % bits('N.1_SHR'))
ex('N_phr', 'rbind oq_N (fun s => q_PHR Wrapping s 7)', 'Ok (%s)' % bits('N.3'))
for a, n in (('_shr_bde','N.1_SHR_BDE'),('_cSHR','N.2'),('_phr_encoded','N.4_PHR_encoded'),('_phr_interleaved','N.4_PHR_interleaved'),
             ('_phr_bde','N.4_PHR_BDE'),('_cPHR','N.4'),('_PSDU_encoded','N.5_PSDU_encoded'),('_PSDU_interleaved','N.5_PSDU_interleaved'),('_PSDU_BDE','N.5_PSDU_BDE'),('_cPSDU','N.5')):
    ex('N%s' % a, 'qattr "%s"' % a, 'Some (%s)' % bits(n))
P = {1:(0,'2FSK','false',0,'false','false'),2:(0,'2FSK','false',0,'true','false'),3:(0,'2FSK','true',1,'true','true'),
     4:(1,'2FSK','true',0,'false','true'),5:(1,'4FSK','false',0,'false','true'),6:(0,'4FSK','true',1,'true','true')}
w('Definition psdu_O := AList 1 (map (fun b => inject_Z (b2z b)) (bs "01000000000000000101011001011101001010011111101000101000")).')
for i,(sfd,m,fec,sch,white,il) in P.items():
    w('Definition fsk_%d := fsk_new (PFloat (inject_Z 50000)) (PInt 1) (PInt %d) (PStr "%s") (PBool %s) (PInt %d) (PInt 0) (PBool %s) (PBool %s) (PInt 4).' % (i,sfd,m,fec,sch,white,il))
    w('Definition ran_O%d := run fsk_%d (k_bitsToIQ psdu_O).' % (i,i))
for i,n in ((1,'O.2.2'),(2,'O.3.2'),(3,'O.4.2'),(4,'O.5.1'),(5,'O.6.1'),(6,'O.7.2')):
    ex('O%d_shr' % i, 'rbind fsk_%d k_SHR' % i, 'Ok (%s)' % bits(n))
for i,n in ((2,'O.3.3'),(3,'O.4.3'),(4,'O.5.2'),(5,'O.6.2'),(6,'O.7.3')):
    ex('O%d_phr' % i, 'rbind fsk_%d (fun s => k_PHR s 7)' % i, 'Ok (%s)' % bits(n))
for i,n in ((1,'O.2.4'),(2,'O.3.5'),(3,'O.4.8'),(4,'O.5.6'),(5,'O.6.4'),(6,'O.7.8')):
    ex('O%d_ppdu' % i, 'attr ran_O%d k_binary' % i, 'Some (%s)' % bits(n))
for i,a,n in ((3,'encoded','O.4.5'),(3,'interleaved','O.4.6'),(3,'scrambled','O.4.7'),(4,'encoded','O.5.4'),(4,'interleaved','O.5.5'),(6,'encoded','O.7.5'),(6,'interleaved','O.7.6'),(6,'scrambled','O.7.7')):
    ex('O%d_%s' % (i,a), 'attr ran_O%d k_%s' % (i,a), 'Some (%s)' % bits(n))
open('/verif/rocq/theories/Vectors.v','w').write('\n'.join(o))
