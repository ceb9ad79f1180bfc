#!/usr/bin/env python3
"""Run the models of scc, scpp and sas on the project's own test inputs and compare the results
with the reference files shipped in /repo/test.  Writes Coq files to a scratch directory and
evaluates them with vm_compute; every line printed must end in 1 (equal).

usage: validate.py SCRATCH_DIR   (after make in /verif/rocq)"""
import glob, os, subprocess, sys
out = sys.argv[1]
TH = os.path.join(os.path.dirname(os.path.abspath(__file__)), '..', 'rocq', 'theories')
HEAD = """Local Open Scope Z_scope.
Fixpoint eqb (a b : list Z) := match a, b with [], [] => true | x::a, y::b => (x =? y) && eqb a b | _, _ => false end.
Fixpoint strip (a : list Z) := match a with [] => [] | 13 :: r => strip r | c :: r => c :: strip r end.
Definition res (r : outcome (list Z)) (e : list Z) := match r with Ok o => if eqb o e then 1 else 2 | Fatal => 3 | UB => 4 | OutOfFuel => 5 end.
Fixpoint look (l : list (list Z * list Z)) (n : list Z) : option (list Z) := match l with [] => None | (k, v) :: r => if eqb k n then Some v else look r n end.
"""
def lst(b, signed=False):
    b = [x - 256 if signed and x > 127 else x for x in b]
    ch = [b[i:i+400] for i in range(0, len(b), 400)] or [[]]
    return "(" + " ++ ".join("[" + "; ".join("(%d)" % x for x in c) + "]" for c in ch) + ")%list"
def rd(p): return open(p, 'rb').read().replace(b'\r', b'')
def run(name, text):
    p = os.path.join(out, name + '.v')
    open(p, 'w').write(text)
    r = subprocess.run(['bash', '-c', f'ulimit -s unlimited; coqc -Q {TH} Verif {p}'], capture_output=True, text=True)
    ans = [l.strip() for l in r.stdout.split('\n') if l.strip().startswith('=')]
    print(name, 'equal' if ans and all(a.endswith(' 1') for a in ans) else 'DIFFERENT', *ans, r.stderr[-300:])
t = "From Verif Require Import Base SccState SccStmt.\n" + HEAD
t += f"Definition s : list Z := {lst(rd('/repo/test/scc/scc10.c'))}.\nDefinition e : list Z := {lst(open('/repo/test/scc/scc10.ref','rb').read())}.\n"
t += "Eval vm_compute in res (match compile 16 (Z.to_nat 100000) (Z.to_nat 100000) s nil with Ok (b, _) => Ok b | Fatal => Fatal | UB => UB | OutOfFuel => OutOfFuel end) e.\n"
run('scc10', t)
for n in ('sasm', 'scc-self'):
    t = "From Verif Require Import Base Sas.\n" + HEAD
    t += f"Definition s : list Z := {lst(rd(f'/repo/test/sas/{n}.asm'))}.\nDefinition e : list Z := {lst(open(f'/repo/test/sas/{n}.ref','rb').read())}.\n"
    for w in (16, 32): t += f"Eval vm_compute in res (assemble {w} (Z.to_nat 100000) s) e.\n"
    run('sas_' + n.replace('-', '_'), t)
inc = lst(rd('/repo/test/scpp/inc1.h'))
t = "From Verif Require Import Base Spp.\n" + HEAD
for i, f in enumerate(sorted(glob.glob('/repo/test/scpp/*.in'))):
    name = lst(os.path.basename(f).encode())
    t += f"Definition s{i} : list Z := {lst(open(f,'rb').read())}.\nDefinition e{i} : list Z := {lst(rd(f[:-3] + '.ref'), True)}.\n"
    t += f"Eval vm_compute in res (match preprocess 16 (look [({name}, s{i}); ({lst(b'inc1.h')}, {inc})]) (Z.to_nat {150000 if 'scc0' in f else 4000}) {name} with Ok o => Ok (strip o) | r => r end) e{i}.\n"
run('scpp', t)
