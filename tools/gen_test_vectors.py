import json,sys,glob,os
D='/repo/test_vec/vdaf/'
def q(s): return '"%s"'%s
def hexs(s): return '(hex "%s")'%s
def sl(l): return '['+'; '.join(map(q,l))+']'
def zl(l): return '['+'; '.join(str(x) for x in l)+']%Z'
def coqmeas(n,m):
    if n.startswith('Prio3SumVec'): return zl(m)
    if n.startswith('Prio3Multihot') or n.startswith('Poplar1'): return '['+'; '.join('true' if x else 'false' for x in m)+']'
    return '%d%%Z'%m
def coqres(n,r):
    if isinstance(r,list): return '(fun r : list Z => if list_eq_dec Z.eq_dec r %s then true else false)'%zl(r)
    return '(fun r => (r =? %d)%%Z)'%r
def ctor(n,j):
    b='turboshake128 1000'
    if n.startswith('Prio3Count'): return f'Prio3Count {b} {j["shares"]}'
    if n.startswith('Prio3SumVecWithMultiproof'): return f'Prio3SumVecWithMultiproof {b} {j["shares"]} Field64 3 {j["length"]} {j["max_measurement"]} {j["chunk_length"]}'
    if n.startswith('Prio3SumVec'): return f'Prio3SumVec {b} {j["shares"]} {j["length"]} {j["max_measurement"]} {j["chunk_length"]}'
    if n.startswith('Prio3Sum'): return f'Prio3Sum {b} {j["shares"]} {j["max_measurement"]}'
    if n.startswith('Prio3Histogram'): return f'Prio3Histogram {b} {j["shares"]} {j["length"]} {j["chunk_length"]}'
    if n.startswith('Prio3Multihot'): return f'Prio3MultihotCountVec {b} {j["shares"]} {j["length"]} {j["max_weight"]} {j["chunk_length"]}'
    if n.startswith('Poplar1'): return f'Poplar1_init turboshake128 aes128 1000 {j["bits"]}'
def rec(n,j):
    X='(XofTurboShake128 turboshake128 1000)'
    L=lambda k:j[k]
    if n.startswith('Prio3Count'): f,c,i,pr='Field64','(Count Field64)','1',1
    elif n.startswith('Prio3SumVecWithMultiproof'):
        f='Field64' if j.get('field','Field64')=='Field64' else j['field']; c=f'(SumVec {f} {L("length")} {L("max_measurement")} {L("chunk_length")})'; i='(Z.of_N 0xFFFFFFFF)'; pr=j.get('num_proofs',j.get('proofs',3))
    elif n.startswith('Prio3SumVec'): f='Field128'; c=f'(SumVec {f} {L("length")} {L("max_measurement")} {L("chunk_length")})'; i='3'; pr=1
    elif n.startswith('Prio3Sum'): f='Field64'; c=f'(Sum {f} {L("max_measurement")})'; i='2'; pr=1
    elif n.startswith('Prio3Histogram'): f='Field128'; c=f'(Histogram {f} {L("length")} {L("chunk_length")})'; i='4'; pr=1
    elif n.startswith('Prio3Multihot'): f='Field128'; c=f'(MultihotCountVec {f} {L("length")} {L("max_weight")} {L("chunk_length")})'; i='5'; pr=1
    return f'''{{| p3_field := {f}; p3_flp := FlpBBCGGI19 {c}; p3_xof := {X}; p3_ID := {i};
     p3_VERIFY_KEY_SIZE := 32; p3_SHARES := {j["shares"]}; p3_PROOFS := {pr} |}}'''
def prefixes(ap):
    b=bytes.fromhex(ap); level=b[0]*256+b[1]; n=int.from_bytes(b[2:6],'big'); per=(level+1+7)//8; rest=b[6:]
    out=[]
    for i in range(n):
        c=rest[i*per:(i+1)*per]
        out.append([(c[k//8]>>(7-k%8))&1 for k in range(level+1)])
    return level,out
def example(n,maxrep=None):
    j=json.load(open(D+n+'.json'))
    pop=n.startswith('Poplar1')
    mk='p1_vdaf p' if pop else 'Prio3Vdaf p'
    reps=j['reports']
    if '_bad_' in n:
        # expected list of outcomes from operations
        exp=[]; init_fail=False
        r=reps[0]
        ops=j['operations']
        for o in ops:
            if o['operation']=='verify_init' and not o['success']: init_fail=True
        if init_fail: exp=[9]
        else:
            rounds={}
            for o in ops:
                if o['operation']=='verifier_shares_to_message':
                    exp.append(0 if o['success'] else 1)
                if o['operation']=='verify_next':
                    k=('n',o['round'])
                    if k not in rounds:
                        rounds[k]=len(exp); exp.append(0)
                    if not o['success']: exp[rounds[k]]=2
        ap='tt'
        body=f'tv_bad ({mk}) {hexs(j["verify_key"])} {hexs(j["ctx"])} AP {hexs(r["nonce"])} "{r["public_share"]}" {sl(r["input_shares"])}'
        if pop:
            body='match p1_decode_agg_param %s with Ok ap => %s | Raise _ => [] end'%(hexs(j['agg_param']),body.replace('AP','ap'))
        else: body=body.replace('AP','tt')
        return f'''(** /repo/test_vec/vdaf/{n}.json *)
Example {n} :
  match {ctor(n,j)} with
  | Ok p => {body}
  | Raise _ => []
  end = {'['+'; '.join(map(str,exp))+']'}.
Proof. vm_compute. reflexivity. Qed.

'''
    pre=''
    if not pop:
        pre=f'''Definition {n}_instance : Prio3 :=
  {rec(n,j)}.
Example {n}_constructor : {ctor(n,j)} = Ok {n}_instance.
Proof. reflexivity. Qed.
'''
        mk=f'Prio3Vdaf {n}_instance'
    exp=[]
    for r in reps:
        rows=[[r['public_share']],r['input_shares']]+r['verifier_shares']+[r['verifier_messages'],r['out_shares']]
        exp.append('['+';\n        '.join(sl(x) for x in rows)+']')
    rep='['+';\n       '.join(f'({coqmeas(n,r["measurement"])}, {hexs(r["nonce"])}, {hexs(r["rand"])})' for r in reps)+']'
    body=f'''tv_check ({mk}) {hexs(j["verify_key"])} {hexs(j["ctx"])} AP
      {rep}
      [{(';'+chr(10)+'       ').join(exp)}]
      {sl(j["agg_shares"])} {coqres(n,j["agg_result"])}'''
    if pop:
        body='match p1_decode_agg_param %s with\n    | Ok ap => res_is (p1_encode_agg_param ap) "%s" && %s\n    | Raise _ => false\n    end'%(hexs(j['agg_param']),j['agg_param'],body.replace('AP','ap'))
    else:
        body=body.replace('AP','tt')
        return f'''(** /repo/test_vec/vdaf/{n}.json *)
{pre}Example {n} :
  {body} = true.
Proof. vm_compute. reflexivity. Qed.

'''
    return f'''(** /repo/test_vec/vdaf/{n}.json *)
Example {n} :
  match {ctor(n,j)} with
  | Ok p =>
    {body}
  | Raise _ => false
  end = true.
Proof. vm_compute. reflexivity. Qed.

'''
HDR='(** Checks of the model against the test vectors of /repo/test_vec/vdaf. *)\nFrom Coq Require Import Strings.String.\nFrom Verif Require Import TestVecRun %s.\nOpen Scope string_scope.\nOpen Scope nat_scope.\n\n'
if __name__=='__main__':
    os.makedirs('/root/tv/all',exist_ok=True)
    for f in sorted(os.listdir(D)):
        n=f[:-5]
        if n.startswith('Prio3HigherDegree'): continue
        open(f'/root/tv/all/{n}.v','w').write(HDR%('Poplar1' if n.startswith('Poplar1') else 'Prio3')+example(n))
