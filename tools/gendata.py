#!/usr/bin/env python3
"""gendata.py: write theories/ModelData.v from the text of /repo/data/*.py (parsed, not executed)."""
import ast, glob, os
from decimal import Decimal
from fractions import Fraction
OUT = '/verif/rocq/theories/ModelData.v'
def lit(text):
    text = text.strip()
    if text == '10*365.25':
        return 'LD 36525 10'                       # exact in binary64 as well
    v = Fraction(Decimal(text))
    par = lambda z: '(%d)' % z if z < 0 else '%d' % z
    if '.' not in text and 'e' not in text.lower():
        return 'LI %s' % par(int(v))
    q = 1
    while (v * q).denominator != 1:
        q *= 10
    return 'LD %s %d' % (par(int(v * q)), q)
out = ['''(** * The data sets that come with the program, /repo/data/*.py, and /repo/runme.py

    Written by tools/gendata.py from the text of these files. *)
From Coq Require Import String.
From Verif Require Import Py Num ModelDist ModelMain.
Local Open Scope Z_scope.

(** A literal: an int, or a float given as numerator and power of ten.  [LD p q] is the number
    closest to p/q (p and q are below 2^53, so the division is correctly rounded). *)
Inductive lit := LI (z : Z) | LD (p : Z) (q : positive).

(** One module of /repo/data.  A distribution is the list of its entries; one entry stands for a scalar
    (in Python, (0.25) is a number). *)
Record dataset := {
  d_name : string; d_target : Z; d_npaths : Z; d_duration : lit; d_nrealizations : Z;
  d_base : lit; d_c : list lit; d_p : list lit; d_t : list lit;
  d_buffer : lit; d_spacing : lit; d_umbra : lit; d_smooth : lit; d_confined : bool; d_tol : lit; d_maxstep : lit;
  d_wells : list (lit * lit * lit * list lit);
  d_obs : list (lit * lit * lit * lit)
}.

Section Args.
  Context {T : Type} {N : Num T}.
  Definition lit_val (l : lit) : pyval T :=
    match l with LI z => PInt z | LD p q => PFloat (nlit p q) end.
  Definition dist_val (l : list lit) : pyval T :=
    match l with [x] => lit_val x | _ => PTuple (map lit_val l) end.
  (** runme.py:56-63: the call of oneka for the module [d]; [runtime] is time.asctime(). *)
  Definition data_args (d : dataset) (runtime : string) : args T :=
    {| projectname := PStr (d_name d); runtime := PStr runtime; target := PInt (d_target d); npaths := PInt (d_npaths d);
       duration := lit_val (d_duration d); nrealizations := PInt (d_nrealizations d); base_ := lit_val (d_base d);
       c_dist := dist_val (d_c d); p_dist := dist_val (d_p d); t_dist := dist_val (d_t d);
       stochastic_wells := PList (map (fun w => let '(x, y, r, q) := w in PTuple [lit_val x; lit_val y; lit_val r; dist_val q]) (d_wells d));
       observations := PList (map (fun o => let '(x, y, z, s) := o in PTuple [lit_val x; lit_val y; lit_val z; lit_val s]) (d_obs d));
       buffer := lit_val (d_buffer d); spacing := lit_val (d_spacing d); umbra := lit_val (d_umbra d); smooth := lit_val (d_smooth d);
       confined := PBool (d_confined d); tol := lit_val (d_tol d); maxstep := lit_val (d_maxstep d) |}.
End Args.
''']
names = []
for f in sorted(glob.glob('/repo/data/*.py')):
    src = open(f).read()
    if not src.strip():
        continue
    t = ast.parse(src)
    v = {n.targets[0].id: n.value for n in t.body}
    seg = lambda n: ast.get_source_segment(src, n)
    dist = lambda n: '[' + '; '.join(lit(seg(e)) for e in n.elts) + ']' if isinstance(n, ast.Tuple) else '[%s]' % lit(seg(n))
    name = os.path.basename(f)[:-3]
    names.append(name)
    g = lambda k: lit(seg(v[k]))
    i = lambda k: str(int(seg(v[k])))
    out.append('(** data/%s.py *)\nDefinition %s : dataset := {|' % (os.path.basename(f)[:-3], name))
    out.append('  d_name := "%s"; d_target := %s; d_npaths := %s; d_duration := %s; d_nrealizations := %s;' % (v['PROJECTNAME'].value, i('TARGET'), i('NPATHS'), g('DURATION'), i('NREALIZATIONS')))
    out.append('  d_base := %s; d_c := %s; d_p := %s; d_t := %s;' % (g('BASE'), dist(v['C_DIST']), dist(v['P_DIST']), dist(v['T_DIST'])))
    out.append('  d_buffer := %s; d_spacing := %s; d_umbra := %s; d_smooth := %s; d_confined := %s; d_tol := %s; d_maxstep := %s;' % (g('BUFFER'), g('SPACING'), g('UMBRA'), g('SMOOTH'), str(v['CONFINED'].value).lower(), g('TOL'), g('MAXSTEP')))
    out.append('  d_wells := [\n    %s];' % ';\n    '.join('(%s, %s)' % (', '.join(lit(seg(e)) for e in w.elts[:3]), dist(w.elts[3])) for w in v['WELLS'].elts))
    out.append('  d_obs := [\n    %s] |}.\n' % ';\n    '.join('(%s)' % ', '.join(lit(seg(e)) for e in o.elts) for o in v['OBSERVATIONS'].elts))
out.append('Definition shipped : list dataset := [%s].' % '; '.join(names))
s = '\n'.join(out) + '\n'
if not os.path.exists(OUT) or open(OUT).read() != s:
    open(OUT, 'w').write(s)
