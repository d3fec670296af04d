#!/usr/bin/env python3
"""Generates rocq/theories/M_Data_Rao.v from the json files of the default
thermochemical database of /repo (decimal literals are kept exactly)."""
import json, glob, os
from decimal import Decimal
D = '/repo/auxi/tools/chemistry/data/'
def q(s):
    d = Decimal(s)
    sign, digits, exp = d.as_tuple()
    n = int(''.join(map(str, digits)))
    if exp > 0: n, exp = n * 10**exp, 0
    while exp < 0 and n % 10 == 0: n, exp = n // 10, exp + 1
    if n == 0: return '0'
    t = '%d # %d' % (n, 10**-exp)
    return ('(- %s)' if sign else '(%s)') % t
def gen(name, out):
    w = []
    files = sorted(glob.glob(D + name + '/Compound_*.json'))
    for fn in files:
        d = json.load(open(fn), parse_float=lambda s: s, parse_int=lambda s: s)
        ph = []
        for k, p in d['_phases'].items():
            assert k == p['symbol'] and Decimal(p['Tref']) == Decimal('298.15')
            rs = []
            for kk, r in p['_Cp_records'].items():
                ts = '; '.join('(%s, %s)' % (q(c), q(e)) for c, e in zip(r['_coefficients'], r['_exponents']))
                rs.append('(%s, mkqr %s %s [%s])' % (q(kk), q(r['Tmin']), q(r['Tmax']), ts))
            ph.append('      ("%s"%%string, mkqp %s %s [%s])' % (k, q(p['DHref']), q(p['Sref']), '; '.join(rs)))
        w.append('   (** data/%s/%s *)\n   mkqc "%s" %s [\n%s]' % (name, os.path.basename(fn), d['formula'], q(d['molar_mass']), ';\n'.join(ph)))
    open(out, 'w').write('''(** GENERATED by scripts/gen_data.py from auxi/tools/chemistry/data/%s/*.json:
    the thermochemical database loaded by thermochemistry.py:742-761 and 885.
    Decimal literals are kept exactly (the program rounds them to binary64). *)
From Verif Require Import Prelude M_Data.
Local Open Scope Q_scope.

Definition %s_data : list qcompound :=
  [
%s
  ].
''' % (name, name, ';\n'.join(w)))
gen('rao', '/verif/rocq/theories/M_Data_Rao.v')
gen('nist', '/verif/rocq/theories/M_Data_Nist.v')

def gen_fluids(out):
    """rocq/theories/M_Data_Fluids.v from the polynomial models of
    materialphysicalproperties/data/*.json."""
    P = '/repo/auxi/tools/materialphysicalproperties/data/'
    w = []
    for fn in sorted(glob.glob(P + '*.json')):
        d = json.load(open(fn), parse_float=lambda s: s, parse_int=lambda s: s)
        t = d['state_schema']['T']
        assert t == d['state_validator']['schema']['T'] and t['required'] and t['type'] == 'float'
        b = os.path.basename(fn)[:-5]
        w.append('   (** data/%s.json *)\n   ("%s"%%string, mkqpm [%s] %s %s)' % (b, b, '; '.join(q(c) for c in d['_coeffs']), q(t['min']), q(t['max'])))
    open(out, 'w').write('''(** GENERATED by scripts/gen_data.py from
    auxi/tools/materialphysicalproperties/data/*.json: the coefficients (highest
    power first) and the limits of T of the polynomial models.  Decimal literals
    are kept exactly (the program rounds them to binary64). *)
From Verif Require Import Prelude.
Local Open Scope Q_scope.

Record qpoly := mkqpm { qp_coeffs : list Q; qp_min : Q; qp_max : Q }.
Definition fluid_data : list (string * qpoly) :=
  [
%s
  ].
''' % ';\n'.join(w))
gen_fluids('/verif/rocq/theories/M_Data_Fluids.v')

def gen_measured(out):
    """rocq/theories/M_Data_Measured.v from the data sets in
    materialphysicalproperties/data/*.csv and what the polynomial models there
    record about themselves."""
    import csv
    P = '/repo/auxi/tools/materialphysicalproperties/data/'
    about, w, used = [], [], []
    for fn in sorted(glob.glob(P + '*.json')):
        d = json.load(open(fn))
        b = os.path.basename(fn)[:-5]
        assert len(d['datasets']) == 1
        used.append(d['datasets'][0])
        about.append('   ("%s", mksrc "%s" "%s" "%s")' % (b, d['datasets'][0], d['material'], d['symbol']))
    for ds in sorted(set(used)):
        rows = list(csv.reader(open(P + ds)))
        cols = []
        for i, h in enumerate(rows[6]):
            if not h: continue
            try: cols.append('    ("%s", [%s])' % (h, '; '.join(q(r[i]) for r in rows[7:])))
            except Exception: print(ds, h, 'is no column of numbers')
        w.append('   (** data/%s *)\n   ("%s", mkms "%s" [\n%s])' % (ds, ds, rows[0][1], ';\n'.join(cols)))
    open(out, 'w').write('''(** GENERATED by scripts/gen_data.py from
    auxi/tools/materialphysicalproperties/data: the measurements in the data sets
    of the polynomial models (columns that pandas does not read as numbers are left
    out; decimal literals are kept exactly), and the data set, material and symbol
    that the models record. *)
From Verif Require Import Prelude.
Local Open Scope string_scope.
Local Open Scope list_scope.
Local Open Scope Q_scope.

Record source := mksrc { src_dataset : string; src_material : string; src_symbol : string }.
Definition model_sources : list (string * source) :=
  [
%s
  ].
Record measurements := mkms { ms_material : string; ms_columns : list (string * list Q) }.
Definition measured_data : list (string * measurements) :=
  [
%s
  ].
''' % (';\n'.join(about), ';\n'.join(w)))
gen_measured('/verif/rocq/theories/M_Data_Measured.v')
