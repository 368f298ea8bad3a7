import json,sys,re
import gen_test_vectors as gen
D=gen.D
o_ctor,o_rec=gen.ctor,gen.rec
def conv(n):
    e=gen.example(n)
    # split out the last Example
    i=e.rindex('Example %s :'%n)
    head,ex=e[:i],e[i:]
    m=re.match(r'Example (\w+) :\n(.*) = (true|\[[0-9; ]*\])\.\nProof\. vm_compute\. reflexivity\. Qed\.\n',ex,re.S)
    body,val=m.group(2),m.group(3)
    ty='bool' if val=='true' else 'list nat'
    return head+f'Definition {n}_outcome : {ty} := Eval vm_compute in\n{body}.\nExample {n} : {n}_outcome = {val}.\nProof. reflexivity. Qed.\n\n'
def higher():
    n='Prio3HigherDegree_0'
    gen.ctor=lambda n,j:f'Prio3HigherDegree turboshake128 1000 {j["shares"]}'
    gen.rec=lambda n,j:'X'
    e=gen.example(n); gen.ctor,gen.rec=o_ctor,o_rec
    i=e.index('Definition'); k=e.index('Example '+n+' :')
    j=json.load(open(D+n+'.json'))
    e=e[:i]+e[k:]
    e=e.replace(n+'_instance',f'(Prio3HigherDegree turboshake128 1000 {j["shares"]})')
    return e
def higher_conv():
    e=higher(); n='Prio3HigherDegree_0'
    i=e.index('Example')
    m=re.match(r'Example (\w+) :\n(.*) = true\.\n',e[i:],re.S)
    return e[:i]+f'Definition {n}_outcome : bool := Eval vm_compute in\n{m.group(2)}.\nExample {n} : {n}_outcome = true.\nProof. reflexivity. Qed.\n\n'
def badmsg():
    n='Prio3Histogram_bad_verifier_message'
    j=json.load(open(D+n+'.json')); r=j['reports'][0]
    return f'''(** /repo/test_vec/vdaf/{n}.json *)
Definition {n}_outcome : bool := Eval vm_compute in
  match {gen.ctor(n,j)} with
  | Ok p => tv_bad_message (Prio3Vdaf p) {gen.hexs(j["verify_key"])} {gen.hexs(j["ctx"])} tt {gen.hexs(r["nonce"])} "{r["public_share"]}" 0
      "{r["input_shares"][0]}" "{r["verifier_shares"][0][0]}" "{r["verifier_messages"][0]}"
  | Raise _ => false
  end.
Example {n} : {n}_outcome = true.
Proof. reflexivity. Qed.

'''
HDR='''(** Further checks of the model against the test vectors of /repo/test_vec/vdaf.
    The outcomes are computed when this file is compiled; unlike the Examples of
    TestVec_Prio3.v and TestVec_Poplar1.v, the computation is not part of the proof
    terms, because replaying it in the independent checker takes too long. *)
From Coq Require Import Strings.String.
From Verif Require Import TestVecRun Prio3 Poplar1 TestCircuits.
Open Scope string_scope.
Open Scope nat_scope.

'''
if __name__=='__main__':
    names=sys.argv[1:]
    out=HDR
    for n in names:
        if n=='Prio3HigherDegree_0': out+=higher_conv()
        elif n.endswith('bad_verifier_message'): out+=badmsg()
        else: out+=conv(n)
    sys.stdout.write(out)
