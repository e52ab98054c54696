#!/usr/bin/env python3
"""Model validation: Model_Codegen.gen applied to /repo/test/primitive/config/X.json is the text of /repo/test/primitive/X.cpp.
   usage: codegen.py ROCQ_DIR (compiled) OUT_DIR [name prefix...]"""
import glob, json, os, subprocess, sys
rocq, out, pre = sys.argv[1], sys.argv[2], sys.argv[3:]
def q(s): return '(txt "' + s.replace('"', '""') + '")'
def lst(l): return '[' + '; '.join(l) + ']'
def val(v): return f'JInt {v}' if isinstance(v, int) else f'JText {q(v)}'
for f in sorted(glob.glob('/repo/test/primitive/config/*.json')):
    name = os.path.basename(f)[:-5]
    if pre and not any(name.startswith(p) for p in pre): continue
    c = json.load(open(f)); p = c['payload']
    sc = 's_' + c['scheme'][len('test-primitive-'):].replace('-', '_')
    vs = [lst([lst([f'({q(k)}, {val(v)})' for k, v in d.items()]) for d in t['data']]) for t in p['vectors']]
    text = open(f'/repo/test/primitive/{name}.cpp').read()
    lines = text.split('\n')
    src = f'''From Coq Require Import String Ascii.
From Verif Require Import Base Model_App Model_Codegen.
Local Open Scope N_scope.
Definition c : config := {{| cf_cpltime := {lst(map(q, p['impl']['cpltime']))}; cf_runtime := {lst(map(q, p['impl']['runtime']))};
  cf_include := {lst(map(q, p['include']))}; cf_vectors := {lst(vs)} |}}.
Definition t : list N := flat_map (fun l => l ++ [10]) {lst([q(l) for l in lines[:-1]])} ++ {q(lines[-1])}.
Goal gen {sc} c = Some t. Proof. vm_compute. reflexivity. Qed.
'''
    v = os.path.join(out, 'Cg_' + name + '.v'); open(v, 'w').write(src)
    r = subprocess.run(f'ulimit -s unlimited; timeout 900 coqc -Q {rocq}/theories Verif {v}', shell=True, capture_output=True, text=True)
    print(name, 'OK' if r.returncode == 0 else 'FAIL ' + r.stderr[-300:], flush=True)
