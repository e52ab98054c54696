#!/usr/bin/env python3
"""tools/vectors.py [file prefix ...]: run the project's own test vectors (/repo/test/primitive/config/*.json) through the model.

For each file a Coq file is written to a scratch directory in which the functions of Model_Test (the model of
src/milo/primitive/KIND/test.h) are evaluated on every vector; the result must be Some true.  The .cpp files in
/repo/test/primitive are generated from the same data (checked here: every byte string of the vectors occurs there)."""
import json,os,re,subprocess,sys,glob,time
ROOT=os.path.dirname(os.path.dirname(os.path.abspath(__file__)))
CFG='/repo/test/primitive/config'
OUT='/tmp/vectors'
os.makedirs(OUT,exist_ok=True)
SHA={'1_160':'SHA1','2_224':'SHA224','2_256':'SHA256','2_384':'SHA384','2_512':'SHA512','2_512_224':'SHA512_224','2_512_256':'SHA512_256'}
def hx(s): return '(bs %d%%nat 0x%s)'%(len(s)//2,s or '0')
def txt(s): return '(bs %d%%nat 0x%s)'%(len(s),s.encode().hex() or '0')
HEAD='''From Verif Require Import Base Model_Memory Model_Container Model_Update Model_Codec Model_Sha Model_Mac Model_Hmac Model_Poly Model_Cipher Model_Aead Model_Kdf Model_Test Model_X86 Model_ChaChaAsm Model_ShaAsm Spec_Sha.
Local Open Scope N_scope.
Definition host : ctx := {| cx_big := false; cx_ce := false |}.
Definition fixed : ctx := {| cx_big := false; cx_ce := true |}.
Definition mips : ctx := {| cx_big := true; cx_ce := false |}.
Fixpoint bs (n : nat) (x : N) : list N := match n with O => [] | S n => bs n (x / 256) ++ [x mod 256] end.
Definition ok (r : option bool) : N := match r with Some true => 1 | _ => 0 end.
Definition junk (n : nat) : list N := repeat 171 n.
Definition jr : list vec := repeat (repeat 0 8) 16.
Definition jt : list vec := repeat (repeat 0 8) 32.
Definition j : nat -> list N -> list N -> list vec := fun _ _ _ => repeat (repeat 0 16) 16.
'''
def gen(f):
    d=json.load(open(f)); name=os.path.basename(f)[:-5]
    v=[x for g in d['payload']['vectors'] for x in g['data']]
    tests=[]
    def each(fmt,tag):
        for x in v: tests.append((tag,x['id'],fmt(x)))
    cx=['host','fixed','mips']
    if name.startswith('hash_sha_'):
        a=SHA[name[9:]]
        for c in cx: each(lambda x:f"test_hash {c} (milo_hash {a}) {hx(x['message'])} {hx(x['digest'])} (junk (ha_digest_size (milo_hash {a})))",'sw '+c)
        if a in('SHA1','SHA224','SHA256'):
            each(lambda x:f"test_hash host (ni_hash {a} j) {hx(x['message'])} {hx(x['digest'])} (junk (ha_digest_size (milo_hash {a})))",'ni host')
    elif name.startswith('mac_hmac_sha_'):
        a=SHA[name[13:]]
        for c in cx: each(lambda x:f"(let n := ha_digest_size (milo_hash {a}) in test_mac {c} (mac_hmac (milo_hash {a}) n) 0 {hx(x['key'])} {hx(x['message'])} {hx(x['digest'])} (junk n))",'sw '+c)
        if a in('SHA1','SHA224','SHA256'):
            each(lambda x:f"(let n := ha_digest_size (milo_hash {a}) in test_mac host (mac_hmac (ni_hash {a} j) n) 0 {hx(x['key'])} {hx(x['message'])} {hx(x['digest'])} (junk n))",'ni host')
    elif name=='mac_poly_1305':
        # on big-endian hosts the key is misread: C23_big_endian_refuted
        for c in cx[:2]: each(lambda x:f"test_mac {c} (mac_poly 16) 32 {hx(x['key'])} {hx(x['message'])} {hx(x['digest'])} (junk 16)",'sw '+c)
    elif name.startswith('cipher'):
        enc='encrypt' in name
        bks=[('bk_sw',c) for c in cx]+[('(bk_ssse_3 jr jt jt)','host'),('(bk_avx_2 jr jt jt)','host')]
        for b,c in bks:
            each(lambda x:f"test_cipher {'Encrypt' if enc else 'Decrypt'} {b} {c} {hx(x['key'])} {hx(x['iv'])} {hx(x['plaintext' if enc else 'ciphertext'])} {hx(x['ciphertext' if enc else 'plaintext'])}",b+' '+c)
    elif name.startswith('aead'):
        enc='encrypt' in name
        bks=[('bk_sw',c) for c in cx[:2]]+[('(bk_ssse_3 jr jt jt)','host'),('(bk_avx_2 jr jt jt)','host')]
        for b,c in bks:
            if enc: each(lambda x:f"test_aead_encrypt {b} {c} 16 {hx(x['key'])} {hx(x['iv'])} {hx(x['aad'])} {hx(x['plaintext'])} {hx(x['ciphertext'])} {hx(x['digest'])} (junk 16)",b+' '+c)
            else: each(lambda x:f"test_aead_decrypt {b} {c} 16 {hx(x['key'])} {hx(x['iv'])} {hx(x['aad'])} {hx(x['ciphertext'])} {hx(x['digest'])} {hx(x['plaintext'])} (junk 16)",b+' '+c)
    elif name.startswith('kdf_hkdf'):
        a=SHA[name[18:]]
        def fmt(x,c,al):
            i,s,n=[len(x[k])//2 for k in('ikm','salt','info')]
            return f"test_kdf {c} (kdf_hkdf (mac_hmac ({al}) (ha_digest_size (milo_hash {a})))) {hx(x['ikm']+x['salt']+x['info'])} ((0, {i}), ({i}, {s}), ({i+s}, {n}))%nat {hx(x['key'])}"
        for c in cx[:2]: each(lambda x:fmt(x,c,f'milo_hash {a}'),'sw '+c)
    elif name.startswith('kdf_pbkdf_2'):
        a=SHA[name[21:]]
        def fmt(x,c,al):
            i,s=[len(x[k])//2 for k in('ikm','salt')]
            return f"test_kdf {c} (kdf_pbkdf_2 (mac_hmac ({al}) (ha_digest_size (milo_hash {a})))) {hx(x['ikm']+x['salt'])} ((0%nat, {i}%nat), ({i}%nat, {s}%nat), {x['iterations']}) {hx(x['key'])}"
        for c in cx[:1]: each(lambda x:fmt(x,c,f'milo_hash {a}'),'sw '+c)
    elif name.startswith('codec'):
        enc='encode' in name; k='base_16 true' if '16' in name else 'base_64 true'
        for c in cx:
            each((lambda x:f"test_encode {c} ({k}) {hx(x['from'])} {txt(x['to'])}") if enc else (lambda x:f"test_decode {c} ({k}) {txt(x['from'])} {hx(x['to'])}"),c)
    return name,tests,v
def cpp_bytes(name):
    t=open(f'/repo/test/primitive/{name}.cpp').read()
    res=set()
    for m in re.finditer(r'((?:"(?:\\.|[^"\\])*"\s*)+)_cv',t):
        s=''.join(re.findall(r'"((?:\\.|[^"\\])*)"',m.group(1)))
        res.add(bytes(s,'latin1').decode('unicode_escape').encode('latin1').hex())
    return res
bad=0; total=0; files=0
for f in sorted(glob.glob(CFG+'/*.json')):
    if len(sys.argv)>1 and not any(os.path.basename(f).startswith(p) for p in sys.argv[1:]): continue
    name,tests,v=gen(f)
    have=cpp_bytes(name)
    for x in v:
        for k,s in x.items():
            if isinstance(s,str) and s not in have and s.encode().hex() not in have: print(name,x['id'],k,'not in .cpp'); bad+=1
    p=f'{OUT}/V_{name}.v'
    with open(p,'w') as g:
        g.write(HEAD)
        g.write('Definition results : list N := [\n'+';\n'.join('ok ('+t[2]+')' for t in tests)+'].\n')
        g.write('Eval vm_compute in results.\n')
    t0=time.time()
    r=subprocess.run(['bash','-c',f'ulimit -v 6000000; ulimit -s unlimited; timeout 7200 coqc -Q {ROOT}/rocq/theories Verif {p}'],capture_output=True,text=True)
    out=re.sub(r':\s*list N\s*$','',r.stdout.strip())
    res=re.findall(r'\b[01]\b',out)
    fails=[tests[i][:2] for i,z in enumerate(res) if z=='0'] if len(res)==len(tests) else ['NO RESULT '+r.stderr[-300:]]
    print(f'{name}: {len(v)} vectors, {len(tests)} runs, {"all accepted" if not fails else "FAILED "+str(fails[:5])} ({time.time()-t0:.0f} s)',flush=True)
    bad+=len(fails); total+=len(tests); files+=1
print(f'{files} files, {total} runs, {bad} failures')
