(** Running a circuit against the plain, prover and verifier gadgets, described
    by the log of gadget inputs. *)
From Verif Require Import Base Common Field Poly FlpBBCGGI19 Spec CircuitSpec BaseFacts CommonFacts
  FieldFacts PolyFacts GadgetFacts.
Open Scope nat_scope.

Lemma upd_map_seq {A} (f : nat -> A) n i v : i < n ->
  upd (map f (seq 0 n)) i v = map (fun j => if j =? i then v else f j) (seq 0 n).
Proof.
  intros Hi. apply (nth_ext' v).
  - now rewrite length_upd, !map_length.
  - rewrite length_upd, map_length, seq_length. intros j Hj.
    rewrite nth_upd by (rewrite map_length, seq_length; lia).
    rewrite !(nth_map' _ _ _ 0) by (rewrite seq_length; lia).
    rewrite !seq_nth by lia. cbn [Nat.add]. rewrite (Nat.eqb_sym i j). easy.
Qed.

Lemma nth_map_seq {A} (f : nat -> A) n i d : i < n -> nth i (map f (seq 0 n)) d = f i.
Proof.
  intros Hi. rewrite (nth_map' _ _ _ 0) by (rewrite seq_length; lia). now rewrite seq_nth.
Qed.

Section Runs.
Context {P : FieldClass}.
Notation F := (F P).
Add Ring FringCF : (@F_ring P).

(** ** Abstract run with an oracle for the gadget calls; [log] has, per gadget,
    the inputs of its calls so far. *)
Notation glog_t := (list (list (list F))).
Fixpoint trun {A} (o : nat -> nat -> list F -> F) (m : prog P A) (log : glog_t) : option (A * glog_t) :=
  match m with
  | Ret a => Some (a, log)
  | Fail _ => None
  | Call i inp k =>
    trun o (k (o i (S (length (nth i log []))) inp)) (upd log i (nth i log [] ++ [inp]))
  end.

Lemma map_length_upd (log : glog_t) i inp : i < length log ->
  map (@length _) (upd log i (nth i log [] ++ [inp]))
  = upd (map (@length _) log) i (S (nth i (map (@length _) log) 0)).
Proof.
  revert i; induction log as [|a log IH]; intros [|i] H; cbn in *; try lia.
  - rewrite app_length. cbn. f_equal. lia.
  - f_equal. apply IH. lia.
Qed.

(** [log'] extends [log] with inputs of the right arity, within the budget. *)
Definition extends (gs : list gadget) (calls : list nat) (log log' : glog_t) : Prop :=
  length log' = length gs /\
  forall i, i < length gs -> exists ext, nth i log' [] = nth i log [] ++ ext /\
    Forall (fun inp => length inp = ARITY (nth i gs Mul)) ext /\
    (ext <> [] -> length (nth i log' []) <= nth i calls 0).

Lemma extends_refl gs calls log : length log = length gs -> extends gs calls log log.
Proof.
  intros H. split; [easy|]. intros i Hi. exists []. now rewrite app_nil_r.
Qed.

Lemma extends_step gs calls log log' i inp : length log = length gs -> i < length gs ->
  length inp = ARITY (nth i gs Mul) -> length (nth i log []) < nth i calls 0 ->
  extends gs calls (upd log i (nth i log [] ++ [inp])) log' -> extends gs calls log log'.
Proof.
  intros Hl Hi Ha Hb [H1 H2]. split; [easy|]. intros j Hj.
  destruct (H2 j Hj) as (ext & E & Hf & Hn). rewrite nth_upd in E by lia.
  destruct (Nat.eqb_spec i j) as [<-|Hne].
  - exists (inp :: ext). split; [rewrite E, <- app_assoc; easy|].
    split; [now constructor|]. intros _. destruct ext; [|apply Hn; easy].
    rewrite E, !app_length. cbn. lia.
  - exists ext. now split.
Qed.

Lemma nth_map_length (log : glog_t) i : nth i (map (@length _) log) 0 = length (nth i log []).
Proof.
  destruct (le_lt_dec (length log) i).
  - rewrite !nth_overflow by (rewrite ?map_length; lia). easy.
  - now rewrite (nth_map' _ _ _ []).
Qed.

Lemma run_sim {A St} gs calls (h : St -> nat -> list F -> res (F * St)) (st : glog_t -> St) o :
  (forall log i inp, length log = length gs -> i < length gs -> length inp = ARITY (nth i gs Mul) ->
     length (nth i log []) < nth i calls 0 ->
     h (st log) i inp = Ok (o i (S (length (nth i log []))) inp, st (upd log i (nth i log [] ++ [inp])))) ->
  forall (m : prog P A) log post, length log = length gs -> pok gs calls (map (@length _) log) post m ->
  exists a log', run h m (st log) = Ok (a, st log') /\ trun o m log = Some (a, log') /\ post a /\
    extends gs calls log log'.
Proof.
  intros Hh m. induction m as [a|e|i inp k IH]; intros log post Hl Hpok.
  - exists a, log. cbn in *. split; [easy|]. split; [easy|]. split; [easy|]. now apply extends_refl.
  - destruct Hpok.
  - destruct Hpok as (Hi & Ha & Hb & Hk). rewrite nth_map_length in Hb.
    cbn [run trun]. rewrite Hh by easy. cbn [bind].
    edestruct IH with (log := upd log i (nth i log [] ++ [inp])) as (a & log' & E1 & E2 & Hp & He).
    + now rewrite length_upd.
    + rewrite map_length_upd by lia. apply Hk.
    + exists a, log'. split; [exact E1|]. split; [exact E2|]. split; [easy|].
      eapply extends_step; eassumption.
Qed.

(** The oracle only matters on the calls actually made. *)
Lemma trun_ext {A} gs calls o o' (m : prog P A) log post a log' :
  length log = length gs -> pok gs calls (map (@length _) log) post m ->
  trun o m log = Some (a, log') ->
  (forall i k, i < length gs -> length (nth i log []) <= k < length (nth i log' []) ->
     o' i (S k) (nth k (nth i log' []) []) = o i (S k) (nth k (nth i log' []) [])) ->
  trun o' m log = Some (a, log').
Proof.
  revert log. induction m as [b|e|i inp k IH]; intros log Hl Hpok E Ho.
  - exact E.
  - discriminate.
  - destruct Hpok as (Hi & Ha & Hb & Hk). cbn [trun] in *. rewrite nth_map_length in Hb.
    set (log1 := upd log i (nth i log [] ++ [inp])) in *.
    assert (Hl1 : length log1 = length gs) by (unfold log1; now rewrite length_upd).
    assert (Hp1 : forall y, pok gs calls (map (@length _) log1) post (k y)).
    { intros y. unfold log1. rewrite map_length_upd by lia. apply Hk. }
    assert (Hext : extends gs calls log1 log').
    { destruct (run_sim gs calls (fun (s : glog_t) i inp =>
         Ok (o i (S (length (nth i s []))) inp, upd s i (nth i s [] ++ [inp]))) (fun s => s) o
         ltac:(easy) (k (o i (S (length (nth i log []))) inp)) log1 post Hl1 (Hp1 _))
        as (a1 & l1 & _ & E1 & _ & He). rewrite E in E1. injection E1 as <- <-. easy. }
    destruct Hext as [_ Hext].
    assert (Eo : o' i (S (length (nth i log []))) inp = o i (S (length (nth i log []))) inp).
    { destruct (Hext i Hi) as (ext & Ei & _ & _).
      unfold log1 in Ei. rewrite nth_upd, Nat.eqb_refl in Ei by lia.
      specialize (Ho i (length (nth i log [])) Hi).
      rewrite Ei, <- app_assoc in Ho. rewrite app_nth2 in Ho by lia.
      rewrite Nat.sub_diag in Ho. cbn in Ho. apply Ho. rewrite app_length. cbn. lia. }
    rewrite Eo. apply IH; [exact Hl1 | apply Hp1 | exact E |].
    intros j q Hj Hq. apply Ho; [easy|]. split; [|easy].
    unfold log1 in Hq. rewrite nth_upd in Hq by lia. destruct (Nat.eqb_spec i j) as [<-|]; [|easy].
    rewrite app_length in Hq. cbn in Hq. lia.
Qed.

Lemma trun_total {A} gs calls o (m : prog P A) log post :
  length log = length gs -> pok gs calls (map (@length _) log) post m ->
  exists a log', trun o m log = Some (a, log') /\ post a /\ extends gs calls log log'.
Proof.
  intros Hl Hp.
  destruct (run_sim gs calls (fun (s : glog_t) i inp =>
         Ok (o i (S (length (nth i s []))) inp, upd s i (nth i s [] ++ [inp]))) (fun s => s) o
         ltac:(easy) m log post Hl Hp) as (a & l & _ & E & Hpa & He).
  now exists a, l.
Qed.

(** ** Shares *)
Definition lrel (n : nat) (logs : nat -> glog_t) (log : glog_t) : Prop :=
  (forall s, s < n -> length (logs s) = length log /\
     forall i, length (nth i (logs s) []) = length (nth i log [])) /\
  forall i k j, nth j (nth k (nth i log []) []) f0
                = fsum n (fun s => nth j (nth k (nth i (logs s) []) []) f0).

Lemma lin_trun {A B} n (R : (nat -> A) -> B -> Prop) (q : nat -> nat -> F) (qs : nat -> nat -> nat -> F) :
  (forall i k, q i k = fsum n (fun s => qs s i k)) ->
  forall (m : prog P B) ms log logs b log',
  lin n R ms m -> lrel n logs log -> trun (fun i k _ => q i k) m log = Some (b, log') ->
  exists al logs', (forall s, s < n -> trun (fun i k _ => qs s i k) (ms s) (logs s) = Some (al s, logs' s)) /\
    lrel n logs' log' /\ R al b.
Proof.
  intros Hq m. induction m as [b0|e|i inp k IH]; intros ms log logs b log' Hlin Hrel E.
  - cbn in E. injection E as <- <-. destruct Hlin as (al & H1 & H2).
    exists al, logs. split; [|easy]. intros s Hs. now rewrite H1.
  - destruct Hlin.
  - destruct Hlin as (inps & ks & H1 & H2 & H3). cbn [trun] in E.
    destruct Hrel as [Hr1 Hr2].
    specialize (IH (q i (S (length (nth i log [])))) (fun s => ks s (qs s i (S (length (nth i log [])))))
      (upd log i (nth i log [] ++ [inp]))
      (fun s => upd (logs s) i (nth i (logs s) [] ++ [inps s])) b log').
    destruct IH as (al & logs' & E1 & E2 & E3).
    + rewrite Hq. apply (H3 (fun s => qs s i (S (length (nth i log []))))).
    + split.
      * intros s Hs. destruct (Hr1 s Hs) as [Ha Hb]. rewrite !length_upd. split; [easy|].
        intros j. destruct (le_lt_dec (length log) i) as [Hi|Hi].
        -- assert (forall (l : glog_t) v, length l <= i -> upd l i v = l) as U.
           { intros l v. clear. revert i. induction l as [|x l IHl]; intros [|i] H; cbn in *; try lia; try easy.
             now rewrite IHl by lia. }
           rewrite !U by (rewrite ?Ha; lia). apply Hb.
        -- rewrite !nth_upd by (rewrite ?Ha; lia). destruct (i =? j); [|apply Hb].
           rewrite !app_length, Hb. easy.
      * intros j k' l. destruct (le_lt_dec (length log) i) as [Hi|Hi].
        -- assert (forall (l : glog_t) v, length l <= i -> upd l i v = l) as U.
           { intros l0 v. clear. revert i. induction l0 as [|x l0 IHl]; intros [|i] H; cbn in *; try lia; try easy.
             now rewrite IHl by lia. }
           rewrite U by lia. rewrite Hr2. apply fsum_ext. intros s Hs. rewrite U; [easy|].
           rewrite (proj1 (Hr1 s Hs)). lia.
        -- rewrite nth_upd by lia. destruct (Nat.eqb_spec i j) as [<-|Hne].
           ++ destruct (lt_eq_lt_dec k' (length (nth i log []))) as [[Hk|Hk]|Hk].
              ** rewrite app_nth1 by lia. rewrite Hr2. apply fsum_ext. intros s Hs.
                 destruct (Hr1 s Hs) as [Ha Hb].
                 rewrite nth_upd, Nat.eqb_refl by (rewrite Ha; lia).
                 rewrite app_nth1 by (rewrite Hb; lia). easy.
              ** subst k'. rewrite app_nth2, Nat.sub_diag by lia. cbn [nth]. rewrite H2.
                 apply fsum_ext. intros s Hs. destruct (Hr1 s Hs) as [Ha Hb].
                 rewrite nth_upd, Nat.eqb_refl by (rewrite Ha; lia).
                 rewrite app_nth2 by (rewrite Hb; lia). rewrite Hb, Nat.sub_diag. easy.
              ** rewrite (nth_overflow (_ ++ _)) by (rewrite app_length; cbn; lia).
                 rewrite fsum_zero; [destruct l; easy|].
                 intros s Hs. destruct (Hr1 s Hs) as [Ha Hb].
                 rewrite nth_upd, Nat.eqb_refl by (rewrite Ha; lia).
                 rewrite (nth_overflow (_ ++ _)) by (rewrite app_length, Hb; cbn; lia). now destruct l.
           ++ rewrite Hr2. apply fsum_ext. intros s Hs. destruct (Hr1 s Hs) as [Ha Hb].
              rewrite nth_upd by (rewrite Ha; lia).
              destruct (Nat.eqb_spec i j); [easy|]. easy.
    + exact E.
    + exists al, logs'. split; [|easy]. intros s Hs. destruct (H1 s Hs) as [-> Hlen].
      cbn [trun]. destruct (Hr1 s Hs) as [Ha Hb]. rewrite Hb. now apply E1.
Qed.

(** ** Wires *)

(** The wires of a gadget with seeds [seeds] after the calls in [log]. *)
Definition fill (p : nat) (seeds : list F) (log : list (list F)) : list (list F) :=
  map (fun j => nth j seeds f0 :: map (fun inp => nth j inp f0) log ++ repeat f0 (p - 1 - length log))
      (seq 0 (length seeds)).

Lemma fill_length p seeds log : length (fill p seeds log) = length seeds.
Proof. unfold fill. now rewrite map_length, seq_length. Qed.

Lemma nth_fill p seeds log j : j < length seeds ->
  nth j (fill p seeds log) [] =
  nth j seeds f0 :: map (fun inp => nth j inp f0) log ++ repeat f0 (p - 1 - length log).
Proof. intros H. unfold fill. now rewrite nth_map_seq. Qed.

Lemma fill_wire_length p seeds log w : 1 <= p -> S (length log) <= p -> In w (fill p seeds log) -> length w = p.
Proof.
  intros Hp Hl Hw. unfold fill in Hw. apply in_map_iff in Hw as (j & <- & _).
  cbn [length]. rewrite app_length, map_length, repeat_length. lia.
Qed.

Lemma init_wires_ok p (seeds : list F) : 1 <= p -> init_wires p seeds = Ok (fill p seeds []).
Proof.
  intros Hp. unfold init_wires, fill.
  assert (E : forall s : F, set (fzeros p) 0 s = Ok (s :: repeat f0 (p - 1))).
  { intros s. unfold fzeros. destruct p as [|p]; [lia|]. cbn. now rewrite Nat.sub_0_r. }
  rewrite (mapM_map _ (fun s => s :: repeat f0 (p - 1))) by (intros; apply E).
  f_equal. apply (nth_ext' []).
  - now rewrite !map_length, seq_length.
  - rewrite map_length. intros i Hi. rewrite (nth_map' _ _ _ f0) by easy.
    rewrite nth_map_seq by easy. cbn [map app length]. now rewrite Nat.sub_0_r.
Qed.

Lemma upd_wire (s x : F) l n : upd (s :: l ++ repeat f0 (S n)) (S (length l)) x = s :: (l ++ [x]) ++ repeat f0 n.
Proof.
  cbn [upd]. f_equal. induction l as [|y l IH]; cbn; [easy|]. f_equal. exact IH.
Qed.

Lemma record_wires_ok p seeds log (inp : list F) : length inp = length seeds -> S (length log) < p ->
  record_wires (fill p seeds log) (S (length log)) inp = Ok (fill p seeds (log ++ [inp])).
Proof.
  intros Hi Hp. unfold record_wires.
  destruct (foldM_inv (0, f0) (fun i ws => length ws = length seeds /\ forall j, j < length seeds ->
     nth j ws [] = nth j (if j <? i then fill p seeds (log ++ [inp]) else fill p seeds log) [])
     (enumerate inp) (fill p seeds log)
     (fun wires '(j, x) => let* w := get wires j in let* w' := set w (S (length log)) x in set wires j w'))
    as (ws & E & Hl & Hn).
  - split; [apply fill_length|]. intros j Hj. destruct (Nat.ltb_spec j 0); [lia | easy].
  - intros i ws Hil [Hl Hn]. rewrite enumerate_length in Hil.
    rewrite nth_enumerate by lia. rewrite (get_nth _ _ []) by lia. cbn [bind].
    rewrite Hn by lia. rewrite (proj2 (Nat.ltb_ge i i)) by lia.
    rewrite nth_fill by lia. rewrite set_lt.
    2: { cbn [length]. rewrite app_length, map_length, repeat_length. lia. }
    cbn [bind]. rewrite set_lt by lia. eexists; split; [reflexivity|].
    split; [now rewrite length_upd|]. intros j Hj. rewrite nth_upd by lia.
    destruct (Nat.eqb_spec i j) as [<-|Hne].
    + rewrite (proj2 (Nat.ltb_lt i (S i))) by lia. rewrite nth_fill by lia.
      replace (p - 1 - length log) with (S (p - 1 - length (log ++ [inp]))) by (rewrite app_length; cbn; lia).
      rewrite map_app. cbn [map].
      replace (S (length log)) with (S (length (map (fun inp0 : list F => nth i inp0 f0) log))) by now rewrite map_length.
      apply upd_wire.
    + rewrite Hn by lia. destruct (Nat.ltb_spec j i), (Nat.ltb_spec j (S i)); try lia; easy.
  - rewrite E. f_equal. rewrite enumerate_length in Hn. apply (nth_ext' []).
    + now rewrite fill_length.
    + intros j Hj. rewrite Hn by lia. now rewrite (proj2 (Nat.ltb_lt j (length inp))) by lia.
Qed.

(** Value of a wire at a call, and beyond. *)
Lemma fill_0 p seeds log j : j < length seeds -> nth 0 (nth j (fill p seeds log) []) f0 = nth j seeds f0.
Proof. intros H. now rewrite nth_fill. Qed.
Lemma fill_call p seeds log j k : j < length seeds -> k < length log ->
  nth (S k) (nth j (fill p seeds log) []) f0 = nth j (nth k log []) f0.
Proof.
  intros H Hk. rewrite nth_fill by easy. cbn [nth]. rewrite app_nth1 by (rewrite map_length; lia).
  now rewrite (nth_map' _ _ _ []).
Qed.
Lemma fill_pad p seeds log j k : j < length seeds -> length log <= k ->
  nth (S k) (nth j (fill p seeds log) []) f0 = f0.
Proof.
  intros H Hk. rewrite nth_fill by easy. cbn [nth]. rewrite app_nth2 by (rewrite map_length; lia).
  rewrite nth_repeat'. now destruct (_ <? _).
Qed.

End Runs.
