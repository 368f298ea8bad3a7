(** What one Aggregator of Poplar1, together with the Collector, learns from a batch. *)
From Verif Require Import P1BatchSpec P1BatchFacts CollectSpec Poplar1ViewSpec Poplar1ViewFacts Poplar1Spec Poplar1 Poplar1Inst IdpfViewSpec IdpfSpec Vdaf RunSpec.
From Verif Require Import Field Spec Prio3Spec Xof BaseFacts.
From Verif Require Props_View Props_Poplar1.
From Coq Require Import Lia.
Open Scope nat_scope.

(** C104.  Aggregator [j] and the Collector pool what they see of a batch that is
    queried with the aggregation parameters [aps]: the public shares, the verifier
    shares of both Aggregators, and the aggregate shares of the other one.  For two
    batches with the same answers each view of the first arises from exactly one choice
    of the coins for the second. *)
Theorem C104_coalition : forall (p : Poplar1) (lim : Z), Poplar1Ok p lim -> ~ idpf_ran_out (p1_idpf p) ->
  forall (j : bool) (ctx : bytes), ctx_ok ctx -> forall aps (rs rs' : list (Uploaded p)),
  Forall (fun ap : nat * list (list bool) => Forall (fun x => length x = S (fst ap)) (snd ap)) aps ->
  map (up_known p) rs = map (up_known p) rs' -> Forall (up_wf p aps) rs -> Forall (up_wf p aps) rs' ->
  answers p aps (map (up_m p) rs) = answers p aps (map (up_m p) rs') ->
  forall cs, Forall2 (up_coins_wf p) rs cs ->
  exists seen, p1_batch_view p j ctx aps rs cs = Ok seen /\
  exists cs', Forall2 (up_coins_wf p) rs' cs' /\ p1_batch_view p j ctx aps rs' cs' = Ok seen /\
    forall cs'', Forall2 (up_coins_wf p) rs' cs'' -> p1_batch_view p j ctx aps rs' cs'' = Ok seen -> cs'' = cs'.
Proof. exact p1_coalition. Qed.
Print Assumptions C104_coalition.

(** C104.  Nothing less than the answers is revealed: batches that can give the same
    view have the same answers. *)
Theorem C104_exact : forall (p : Poplar1) (lim : Z), Poplar1Ok p lim ->
  forall (j : bool) (ctx : bytes), ctx_ok ctx -> forall aps (rs rs' : list (Uploaded p)),
  Forall (fun ap : nat * list (list bool) => Forall (fun x => length x = S (fst ap)) (snd ap)) aps ->
  map (up_known p) rs = map (up_known p) rs' -> Forall (up_wf p aps) rs -> Forall (up_wf p aps) rs' ->
  forall cs cs' seen, Forall2 (up_coins_wf p) rs cs -> Forall2 (up_coins_wf p) rs' cs' ->
  p1_batch_view p j ctx aps rs cs = Ok seen -> p1_batch_view p j ctx aps rs' cs' = Ok seen ->
  answers p aps (map (up_m p) rs) = answers p aps (map (up_m p) rs').
Proof. exact p1_determines. Qed.
Print Assumptions C104_exact.

(** C104.  What the methods of Poplar1 do with a batch is such a view: if the reports
    verify, the view with the coins that the XOF expands consists of the real public
    shares, the real verifier shares and the real aggregate share of the other
    Aggregator. *)
Theorem C104_real : forall (p : Poplar1) (lim : Z), Poplar1Ok p lim ->
  forall (j : bool) (key ctx : bytes) (level : nat) (prefixes : list (list bool)),
  level < id_BITS (p1_idpf p) -> (Z.of_nat level < 65536)%Z -> NoDup prefixes -> Forall (fun x => length x = S level) prefixes ->
  ctx_ok ctx -> length key = SEED_SIZE (p1_xof p) ->
  forall (reports : list (list bool * bytes * bytes)) aggs,
  Forall (fun '(m, nonce, rand) => length m = id_BITS (p1_idpf p) /\ length nonce = p1_NONCE_SIZE /\ length rand = p1_RAND_SIZE p) reports ->
  aggregate_shares (p1_vdaf p) ctx (Z.of_nat level, prefixes) key reports = Ok aggs ->
  exists rs cs ws, length rs = length reports /\ length cs = length reports /\ length ws = length reports /\
    (forall i d dr dc dw, i < length reports -> uploaded_real p j key ctx level prefixes (nth i reports d) (nth i rs dr) (nth i cs dc) (nth i ws dw)) /\
    Forall (up_wf p [(level, prefixes)]) rs /\ Forall2 (up_coins_wf p) rs cs /\
    exists other, get aggs (if j then 0 else 1) = Ok other /\ p1_batch_view p j ctx [(level, prefixes)] rs cs = Ok (ws, [other]).
Proof.
  intros p lim HO j key ctx level prefixes H1 H2 H3 H4 H5 H6 reports aggs W E.
  exact (real_batch p lim HO j key ctx level prefixes H1 H2 H3 H4 H5 H6 reports aggs E W).
Qed.
Print Assumptions C104_real.

(** Batches that meet the hypotheses: the strings 00 and 10 in either order, or 01 and
    11 for the query at level 0 only; and a run of the code. *)
Definition ex_q (p : Poplar1) : Query p :=
  {| q_level := 0; q_prefixes := [[false]; [true]]; q_rand := Inner [fof 7; fof 8]; q_abc := Inner [fof 1; fof 2; fof 3]; q_AB := Inner [fof 4; fof 5] |}.
Definition ex_up (m : list bool) : Uploaded Props_View.zero_p1 :=
  {| up_m := m; up_ks := [fof 9]; up_kl := fof 10; up_nonce := zeros 16; up_key := zeros 16; up_queries := [ex_q Props_View.zero_p1] |}.
Definition ex_coins : up_coins Props_View.zero_p1 :=
  ([(zeros 16, (true, false), Inner [fof 3; fof 4]); (zeros 16, (false, false), Leaf [fof 5; fof 6])], [Inner [fof 1; fof 2; fof 3]]).
Example C104_example :
  let rs := [ex_up [false; false]; ex_up [true; false]] in let rs' := [ex_up [true; true]; ex_up [false; true]] in
  let aps := [(0, [[false]; [true]])] in
  (exists lim, Poplar1Ok Props_View.zero_p1 lim) /\ ~ idpf_ran_out (p1_idpf Props_View.zero_p1) /\
  Forall (fun ap : nat * list (list bool) => Forall (fun x => length x = S (fst ap)) (snd ap)) aps /\
  map (up_known _) rs = map (up_known _) rs' /\ Forall (up_wf _ aps) (rs ++ rs') /\
  answers Props_View.zero_p1 aps (map (up_m _) rs) = answers Props_View.zero_p1 aps (map (up_m _) rs') /\
  Forall2 (up_coins_wf Props_View.zero_p1) rs [ex_coins; ex_coins] /\
  answers Props_View.zero_p1 aps [[true; true]; [true; false]] <> answers Props_View.zero_p1 aps (map (up_m _) rs).
Proof.
  cbv zeta. destruct Props_View.C74_example as (_ & A & B & C & D). split; [exact A|]. split; [exact B|].
  assert (W : forall m, length m = 2 -> up_wf Props_View.zero_p1 [(0, [[false]; [true]])] (ex_up m)).
  { intros m Hm. split; [exact Hm|]. split; [reflexivity|]. split; [reflexivity|]. split; [reflexivity|]. split; [|reflexivity]. constructor; [exact D|constructor]. }
  assert (U : forall m, up_coins_wf Props_View.zero_p1 (ex_up m) ex_coins).
  { intro m. split; [exact C|]. cbn [snd ex_coins ex_up up_queries]. constructor; [|constructor]. unfold coin_wf, of_level. cbn. lia. }
  split; [repeat constructor|]. split; [reflexivity|]. split.
  { cbn [app]. constructor; [now apply W|]. constructor; [now apply W|]. constructor; [now apply W|]. constructor; [now apply W|constructor]. }
  split; [vm_compute; reflexivity|]. split; [constructor; [apply U|constructor; [apply U|constructor]]|].
  vm_compute. discriminate.
Qed.
Definition ex_batch_run : list nat := Eval vm_compute in
  map (fun ap => match aggregate_shares (p1_vdaf Props_Poplar1.toy_p1) [x09] ap (repeat x07 32) Props_Poplar1.toy_reports with Ok aggs => length aggs | Raise _ => 0 end)
    [(0%Z, [[false]; [true]]); (1%Z, [[false; false]; [true; false]])].
Example C104_runs : ex_batch_run = [2; 2] /\
  Forall (fun '(m, nonce, rand) => length m = id_BITS (p1_idpf Props_Poplar1.toy_p1) /\ length nonce = p1_NONCE_SIZE /\ length rand = p1_RAND_SIZE Props_Poplar1.toy_p1) Props_Poplar1.toy_reports /\
  (exists lim, Poplar1Ok Props_Poplar1.toy_p1 lim) /\ ctx_ok [x09] /\ length (repeat x07 32) = SEED_SIZE (p1_xof Props_Poplar1.toy_p1).
Proof. split; [reflexivity|]. split; [repeat constructor|]. split; [exact Props_Poplar1.C37_object|]. split; [apply Props_Poplar1.C37_sizes|reflexivity]. Qed.
