import json
def q(s): return '"%s"'%s
def lst(l,f): return "["+"; ".join(f(x) for x in l)+"]"
def op(o):
    sm=lambda k:"None" if k not in o else "Some %d"%o[k]
    return '{| op_operation := "%s"; op_round := %s; op_aggregator_id := %s; op_report_index := %s; op_success := %s |}'%(o['operation'],sm('round'),sm('aggregator_id'),sm('report_index'),str(o['success']).lower())
def vec(name,none):
    d=json.load(open('/repo/test_vec/vdaf/%s.json'%name))
    rs=[]
    for r in d['reports']:
        assert r['measurement'] is None
        rs.append('{| rv_measurement := %s; rv_nonce := %s; rv_rand := %s;\n      rv_public_share := %s;\n      rv_input_shares := %s;\n      rv_verifier_shares := %s;\n      rv_verifier_messages := %s; rv_out_shares := %s |}'%(none,q(r['nonce']),q(r['rand']),q(r['public_share']),lst(r['input_shares'],q),lst(r['verifier_shares'],lambda x:lst(x,q)),lst(r['verifier_messages'],q),lst(r['out_shares'],q)))
    assert d['agg_result'] is None
    return '''{| tv_operations := [%s];
     tv_shares := %d; tv_verify_key := %s; tv_agg_param := %s; tv_ctx := %s;
     tv_reports := [%s];
     tv_agg_shares := %s; tv_agg_result := None |}'''%(";\n       ".join(map(op,d['operations'])),d['shares'],q(d['verify_key']),q(d['agg_param']),q(d['ctx']),"; ".join(rs),lst(d['agg_shares'],q))
out=r'''(** The generators of negative test vectors, run with the parameters of
    /repo/poc/gen_test_vec.py, produce the vectors in /repo/test_vec/vdaf.  The
    outcomes are computed when this file is compiled, as in TestVec_More.v. *)
From Coq Require Import Strings.String.
From Verif Require Import TestVecRun NegVectors Prio3 Poplar1.
Open Scope string_scope.
Open Scope nat_scope.

Fixpoint list_eqb {A} (eqb : A -> A -> bool) (a b : list A) : bool :=
  match a, b with
  | [], [] => true
  | x :: a, y :: b => eqb x y && list_eqb eqb a b
  | _, _ => false
  end.
Definition opt_eqb (a b : option nat) : bool :=
  match a, b with None, None => true | Some x, Some y => x =? y | _, _ => false end.
Definition op_eqb (a b : operation) : bool :=
  String.eqb (op_operation a) (op_operation b) && opt_eqb (op_round a) (op_round b) &&
  opt_eqb (op_aggregator_id a) (op_aggregator_id b) && opt_eqb (op_report_index a) (op_report_index b) &&
  Bool.eqb (op_success a) (op_success b).
(** Equality of test vectors, except that the measurement is not compared and that
    both results must be absent. *)
Definition report_eqb {M} (a b : report_vec M) : bool :=
  String.eqb (rv_nonce a) (rv_nonce b) && String.eqb (rv_rand a) (rv_rand b) &&
  String.eqb (rv_public_share a) (rv_public_share b) && list_eqb String.eqb (rv_input_shares a) (rv_input_shares b) &&
  list_eqb (list_eqb String.eqb) (rv_verifier_shares a) (rv_verifier_shares b) &&
  list_eqb String.eqb (rv_verifier_messages a) (rv_verifier_messages b) && list_eqb String.eqb (rv_out_shares a) (rv_out_shares b).
Definition vec_eqb {M R} (a b : test_vec M R) : bool :=
  list_eqb op_eqb (tv_operations a) (tv_operations b) && (tv_shares a =? tv_shares b) &&
  String.eqb (tv_verify_key a) (tv_verify_key b) && String.eqb (tv_agg_param a) (tv_agg_param b) &&
  String.eqb (tv_ctx a) (tv_ctx b) && list_eqb report_eqb (tv_reports a) (tv_reports b) &&
  list_eqb String.eqb (tv_agg_shares a) (tv_agg_shares b) &&
  match tv_agg_result a, tv_agg_result b with None, None => true | _, _ => false end.
Definition produces {M R} (r : res (list (test_vec M R))) (published : list (test_vec M R)) : bool :=
  match r with Ok vecs => list_eqb vec_eqb vecs published | Raise _ => false end.

(** gen_test_vec.py:616 *)
Definition neg_ctx : bytes := hex "736f6d65206170706c69636174696f6e".
'''
def block(nm,names,M,none,run):
    global out
    for n in names:
        out+='\n(** /repo/test_vec/vdaf/%s.json *)\nDefinition %s_published : test_vec %s :=\n  %s.\n'%(n,n,M,vec(n,none))
    out+=run
T="(XofTurboShake128 turboshake128 1000)"
block('c',['Prio3Count_bad_'+x for x in ['meas_share','wire_seed','gadget_poly','helper_seed']],'Z Z','0%Z',r'''
Definition negative_count_outcome : bool := Eval vm_compute in
  produces (gen_negative_count {| p3_field := Field64; p3_flp := FlpBBCGGI19 (Count Field64);
              p3_xof := XofTurboShake128 turboshake128 1000; p3_ID := 1; p3_VERIFY_KEY_SIZE := 32; p3_SHARES := 2; p3_PROOFS := 1 |}
              0%Z neg_ctx 1%Z)
    [Prio3Count_bad_meas_share_published; Prio3Count_bad_wire_seed_published; Prio3Count_bad_gadget_poly_published;
     Prio3Count_bad_helper_seed_published].
Example negative_count : negative_count_outcome = true.
Proof. reflexivity. Qed.
''')
block('h',['Prio3Histogram_bad_'+x for x in ['leader_jr_blind','helper_jr_blind','public_share','verifier_message']],'Z (list Z)','0%Z',r'''
Definition negative_histogram_outcome : bool := Eval vm_compute in
  produces (gen_negative_histogram {| p3_field := Field128; p3_flp := FlpBBCGGI19 (Histogram Field128 5 2);
              p3_xof := XofTurboShake128 turboshake128 1000; p3_ID := 4; p3_VERIFY_KEY_SIZE := 32; p3_SHARES := 2; p3_PROOFS := 1 |}
              0%Z (test_vec_gen_rand 32) (test_vec_gen_rand 16) neg_ctx 3%Z)
    [Prio3Histogram_bad_leader_jr_blind_published; Prio3Histogram_bad_helper_jr_blind_published;
     Prio3Histogram_bad_public_share_published; Prio3Histogram_bad_verifier_message_published].
Example negative_histogram : negative_histogram_outcome = true.
Proof. reflexivity. Qed.
''')
block('p',['Poplar1_bad_corr_inner'],'(list bool) (list Z)','[]',r'''
Definition negative_poplar1_outcome : bool := Eval vm_compute in
  match Poplar1_init turboshake128 aes128 1000 2 with
  | Ok p => produces (let* tv := gen_poplar1_negative p [] neg_ctx [false; true] (0%Z, [[false]; [true]]) in Ok [tv])
              [Poplar1_bad_corr_inner_published]
  | Raise _ => false
  end.
Example negative_poplar1 : negative_poplar1_outcome = true.
Proof. reflexivity. Qed.
''')
import sys
p=open('/root/work/rocq/theories/TestVec_Poplar1.v').read()
open('/root/work/rocq/theories/TestVec_Neg.v','w').write(out)
