(** What run_daf and run_vdaf compute, report by report and Aggregator by
    Aggregator.  Nothing here models a /repo function. *)
From Verif Require Export Daf Vdaf.
Open Scope nat_scope.

(** The aggregate share of Aggregator [j]: its output share of every report
    accumulated once, in order. *)
Definition fold_outputs {A O} (init : res A) (update : A -> O -> res A) (outs : list (list O)) (j : nat) : res A :=
  let* a := init in
  foldM (fun a o => let* o := get o j in update a o) outs a.

(** The aggregate shares of all Aggregators. *)
Definition fold_all {A O} (shares : nat) (init : res A) (update : A -> O -> res A) (outs : list (list O)) : res (list A) :=
  mapM (fold_outputs init update outs) (range 0 shares).

(** The output shares of one report of a DAF: one per Aggregator. *)
Definition daf_outputs (daf : Daf) (ctx : bytes) (ap : df_AggParam daf) (report : df_Measurement daf * bytes * bytes)
  : res (list (df_OutShare daf)) :=
  let '(measurement, nonce, rand) := report in
  let* (ps, iss) := df_shard daf ctx measurement nonce rand in
  mapM (fun j => let* is := get iss j in df_prep daf ctx j ap nonce ps is) (range 0 (df_SHARES daf)).

Section V.
Context (vdaf : Vdaf) (ctx : bytes) (ap : vd_AggParam vdaf).
Notation State := (vd_VerifyState vdaf).
Notation VShare := (vd_VerifierShare vdaf).
Notation Out := (vd_OutShare vdaf).

(** Verification by any number of Aggregators, [k] rounds before the last one:
    in each round all verifier shares are combined into one message, which every
    Aggregator processes. *)
Fixpoint verify_rounds (k : nat) (sts : list State) (shs : list VShare) : res (list Out) :=
  let* msg := vd_verifier_shares_to_message vdaf ctx ap shs in
  match k with
  | O => mapM (fun st => let* r := vd_verify_next vdaf ctx st msg in
      match r with inr o => Ok o | inl _ => Raise AssertionError end) sts
  | S k =>
    let* next := mapM (fun st => let* r := vd_verify_next vdaf ctx st msg in
      match r with inl x => Ok x | inr _ => Raise AssertionError end) sts in
    verify_rounds k (map fst next) (map snd next)
  end.

(** Verification of one report. *)
Definition verify_report (key nonce : bytes) (ps : vd_PublicShare vdaf) (iss : list (vd_InputShare vdaf)) : res (list Out) :=
  let* init := mapM (fun j => let* is := get iss j in vd_verify_init vdaf key ctx j ap nonce ps is) (range 0 (vd_SHARES vdaf)) in
  verify_rounds (vd_ROUNDS vdaf - 1) (map fst init) (map snd init).

(** The output shares of one report of a VDAF: one per Aggregator. *)
Definition vdaf_outputs (key : bytes) (report : vd_Measurement vdaf * bytes * bytes) : res (list Out) :=
  let '(measurement, nonce, rand) := report in
  let* (ps, iss) := vd_shard vdaf ctx measurement nonce rand in
  verify_report key nonce ps iss.
End V.
