(** * Proofs: how a run ends. *)
From Coq Require Import ZArith List Bool String Lia.
From Verif Require Import M_Go M_Sess S_Sess P_Sess P_Sess2 M_Shutdown S_Shutdown.
Import ListNotations.
Open Scope Z_scope.

Fixpoint acqs (l : list op) : list res := match l with [] => [] | Acq r :: l' => r :: acqs l' | _ :: l' => acqs l' end.
Lemma acqs_app a b : acqs (a ++ b) = acqs a ++ acqs b.
Proof. induction a as [|[| |] a IH]; cbn [app acqs]; rewrite ?IH; reflexivity. Qed.
Lemma acqs_setup c : acqs (setup c) = all_resources c.
Proof. unfold setup, all_resources, early_resources. destruct (c_lbr c), (c_file c); reflexivity. Qed.

(** The loop of Run on the records read so far, as seen from (i, m). *)
Definition at_loop (c : conf) (evs : list event) (gs : list (list item)) (i : Z) (m : sessions) : Prop :=
  forall evs', let r := run_loop (c_delta c) (c_limit c =? 0) i m evs' in
    run (c_delta c) (c_limit c) (evs ++ evs') = (gs ++ out_of r, res_of r, rest_of r).
Lemma at_loop_init c : at_loop c [] [] (i64 (c_limit c)) [].
Proof. intros evs'. cbn [app]. unfold run. destruct (run_loop _ _ _ _ _) as [[a b] d]. reflexivity. Qed.
Lemma at_loop_step c evs gs i m e m' w k : at_loop c evs gs i m -> more c i = true -> handle (c_delta c) m e = HOk m' w k ->
  at_loop c (evs ++ [e]) (gs ++ w) (if k then i - 1 else i) m'.
Proof.
  intros H Hm Hh evs'. rewrite <- app_assoc. cbn [app]. specialize (H (e :: evs')). cbn zeta in H. rewrite H.
  unfold more in Hm. rewrite (run_loop_step _ _ _ _ _ _ _ _ _ Hm Hh). unfold out_of at 1, res_of at 1, rest_of at 1. cbn [fst snd].
  rewrite <- app_assoc. reflexivity.
Qed.
Lemma at_loop_now c evs gs i m : at_loop c evs gs i m -> run (c_delta c) (c_limit c) evs = (gs, if more c i then Closed else Finished, []).
Proof.
  intros H. specialize (H []). cbn zeta in H. rewrite app_nil_r in H. rewrite H. cbn [run_loop]. unfold more.
  destruct (c_limit c =? 0), (0 <? i); cbn [orb negb out_of res_of rest_of fst snd]; rewrite app_nil_r; reflexivity.
Qed.
Lemma at_loop_bad c evs gs i m e o : at_loop c evs gs i m -> more c i = true ->
  (handle (c_delta c) m e = HPanic /\ o = Panicked) \/ (handle (c_delta c) m e = HErr /\ o = Failed) ->
  run (c_delta c) (c_limit c) (evs ++ [e]) = (gs, o, []).
Proof.
  intros H Hm Hh. specialize (H [e]). cbn zeta in H. rewrite H. cbn [run_loop]. unfold more in Hm. rewrite Hm. cbn [negb].
  destruct Hh as [[-> ->]|[-> ->]]; cbn [out_of res_of rest_of fst snd]; rewrite app_nil_r; reflexivity.
Qed.

(** How Run's result relates to the records. *)
Definition res_ok (c : conf) (evs : list event) (r : result) (gs : list (list item)) : Prop :=
  out_of (run (c_delta c) (c_limit c) evs) = gs /\
  let o := res_of (run (c_delta c) (c_limit c) evs) in
  match r with RNil => o = Closed | RFinished => o = Finished | RError => o = Failed \/ o = Closed | RPanic => o = Panicked end.
Definition shown (l : list table) : list (list eff) :=
  match l with
  | [] => [tables true; tables false]
  | [Flame] => [[Table Tdigest true; Table Hist true]]
  | [Hist; Flame] => [[Table Tdigest true]]
  | [Tdigest; Hist; Flame] => [[]]
  | _ => []
  end.
Definition base (c : conf) : list eff := map Acquired (all_resources c).
Definition after_run (c : conf) (s : state) (r : result) : Prop :=
  exists gs ok, res_ok c (seen s) r gs /\ trace s = base c ++ map Group gs ++ tables ok.
Definition sig (ls : list label) : Prop := In LSignal ls.
Definition ends (c : conf) (ls : list label) (s : state) (rs : list res) (outs : list eff) : Prop :=
  (rs = early_resources c /\ outs = [] /\ seen s = [] /\ sig ls) \/
  (rs = all_resources c /\ exists gs ok r, res_ok c (seen s) r gs /\ (r = RFinished \/ (r = RNil /\ sig ls)) /\ outs = map Group gs ++ tables ok).
Definition inv (c : conf) (ls : list label) (s : state) : Prop :=
  match ph s with
  | Setup l => exists dn, setup c = dn ++ l /\ trace s = map Acquired (acqs dn) /\ defers s = rev (acqs dn) /\ seen s = [] /\
                          (cancelled s = true -> sig ls) /\ (sig ls -> cancelled s = true)
  | Running closed r =>
      defers s = rev (all_resources c) /\ (closed = true -> cancelled s = true) /\ (sig ls -> cancelled s = true) /\
      (cancelled s = true -> sig ls \/ r = Done RFinished \/ r = Done RError) /\
      match r with
      | Looping i m => exists gs, trace s = base c ++ map Group gs /\ at_loop c (seen s) gs i m
      | Rendering l r => (r = RNil -> sig ls) /\ exists gs t, res_ok c (seen s) r gs /\ trace s = base c ++ map Group gs ++ t /\ In t (shown l)
      | Done r => (r = RNil -> sig ls) /\ r <> RPanic /\ after_run c s r
      end
  | Unwind => exists rs outs rel, trace s = map Acquired rs ++ outs ++ map Released rel /\ rev rs = rel ++ defers s /\ ends c ls s rs outs
  | Exited (Status 0) => exists rs outs, trace s = map Acquired rs ++ outs ++ map Released (rev rs) /\ ends c ls s rs outs
  | Exited (Status 1) => (exists rs rest, all_resources c = rs ++ rest /\ trace s = map Acquired rs /\ seen s = []) \/ after_run c s RError
  | Exited (Status 2) => after_run c s RPanic
  | Exited (Status _) => False
  | Exited Killed => sig ls
  end.

Lemma early_poll c dn l : setup c = dn ++ Poll :: l -> acqs dn = early_resources c.
Proof.
  unfold setup, early_resources. destruct (c_lbr c), (c_file c); cbn [app]; intros H;
  repeat (destruct dn as [|? dn]; cbn [app] in H; [first [discriminate H|reflexivity]|first [discriminate H|injection H as <- H]]).
Qed.
Lemma inv_init c : inv c [] (init c).
Proof. exists []. repeat split; try discriminate. intros []. Qed.
Lemma sig_snoc ls l : sig ls -> sig (ls ++ [l]).
Proof. intros H. apply in_or_app. left. exact H. Qed.
Lemma sig_unsnoc ls l : l <> LSignal -> sig (ls ++ [l]) -> sig ls.
Proof. intros Hn H. apply in_app_or in H as [H|[H|[]]]; [exact H|congruence]. Qed.
Lemma ends_snoc c ls s s' rs outs l : ends c ls s rs outs -> seen s' = seen s -> ends c (ls ++ [l]) s' rs outs.
Proof.
  intros [(H1 & H2 & H3 & H4)|(H1 & gs & ok & r & H2 & H3 & H4)] He.
  - left. repeat split; try assumption; [congruence|]. apply sig_snoc. exact H4.
  - right. split; [exact H1|]. exists gs, ok, r. rewrite He. split; [exact H2|]. split; [|exact H4]. destruct H3 as [H3|[H3 H5]]; [auto|right; split; [exact H3|apply sig_snoc; exact H5]].
Qed.

Lemma inv_step c ls s l s' : inv c ls s -> step c s l = Some s' -> inv c (ls ++ [l]) s'.
Proof.
  intros Hi Hs. destruct l as [|ok| |e| |ok]; cbn [step] in Hs.
  - (* signal *)
    unfold step_signal in Hs. unfold inv in Hi. assert (Hsg : sig (ls ++ [LSignal])) by (apply in_or_app; right; left; reflexivity).
    destruct (ph s) as [l|closed r| |e] eqn:Hp; [..|discriminate]; destruct (existsb _ _); injection Hs as <-; try exact Hsg.
    + unfold inv. cbn [ph cancelled trace defers seen]. destruct Hi as (dn & H1 & H2 & H3 & H4 & _). rewrite ?Hp. exists dn. auto 10.
    + unfold inv. cbn [ph cancelled trace defers seen]. rewrite ?Hp. destruct Hi as (H1 & H2 & H3 & H4 & H5). split; [exact H1|]. split; [auto|]. split; [auto|].
      split; [left; exact Hsg|]. destruct r as [i m|rl r|r]; [exact H5| |]; destruct H5 as [H5 H6]; (split; [intros _; exact Hsg|exact H6]).
    + unfold inv. cbn [ph cancelled trace defers seen]. rewrite ?Hp. destruct Hi as (rs & outs & rel & H1 & H2 & H3). exists rs, outs, rel.
      split; [exact H1|]. split; [exact H2|]. exact (ends_snoc c ls s _ rs outs LSignal H3 eq_refl).
  - (* main *)
    unfold step_main in Hs. unfold inv in Hi. assert (Hun : sig (ls ++ [LMain ok]) -> sig ls) by (apply sig_unsnoc; discriminate).
    destruct (ph s) as [[|[|r|] l]|closed r| |e] eqn:Hp.
    + injection Hs as <-. unfold inv. cbn [ph set_ph cancelled trace defers seen]. destruct Hi as (dn & H1 & H2 & H3 & H4 & H5 & H6).
      rewrite app_nil_r in H1. subst dn. rewrite acqs_setup in H2, H3. split; [exact H3|]. split; [discriminate|]. split; [auto|].
      split; [intros Hc; left; apply sig_snoc; auto|]. exists []. split; [cbn [map]; rewrite app_nil_r; exact H2|]. rewrite H4. apply at_loop_init.
    + injection Hs as <-. destruct Hi as (dn & H1 & H2 & H3 & H4 & H5 & H6). destruct ok; unfold inv; cbn [ph set_ph cancelled trace defers seen].
      * exists (dn ++ [Check]). rewrite acqs_app, <- app_assoc. cbn [acqs app]. rewrite app_nil_r. repeat split; try assumption; [intros Hc; apply sig_snoc; auto|auto].
      * left. exists (acqs dn), (acqs l). split; [rewrite <- acqs_setup, H1, acqs_app; reflexivity|]. split; assumption.
    + injection Hs as <-. destruct Hi as (dn & H1 & H2 & H3 & H4 & H5 & H6). unfold inv; cbn [ph set_ph cancelled trace defers seen].
      exists (dn ++ [Acq r]). rewrite acqs_app, <- app_assoc, map_app, rev_app_distr. cbn [acqs app map rev]. rewrite H2, H3.
      repeat split; try assumption; [intros Hc; apply sig_snoc; auto|auto].
    + injection Hs as <-. destruct Hi as (dn & H1 & H2 & H3 & H4 & H5 & H6). destruct (cancelled s) eqn:Hc; unfold inv; cbn [ph set_ph cancelled trace defers seen].
      * rewrite (early_poll _ _ _ H1) in H2, H3. exists (early_resources c), [], []. cbn [map app]. rewrite app_nil_r. split; [exact H2|]. split; [symmetry; exact H3|].
        left. repeat split; [exact H4|apply sig_snoc; auto].
      * exists (dn ++ [Poll]). rewrite acqs_app, <- app_assoc. cbn [acqs app]. rewrite app_nil_r. repeat split; try assumption; [intros Hd; congruence|intros Hd; rewrite Hc; auto].
    + destruct Hi as (H1 & H2 & H3 & H4 & H5). destruct r as [i m|rl r|r]; [destruct closed; discriminate..|]. destruct H5 as (H5 & H6 & H7).
      destruct closed; [|destruct r; discriminate]. destruct r; try discriminate; injection Hs as <-; unfold inv; cbn [ph set_ph cancelled trace defers seen].
      * destruct H7 as (gs & fo & Hr & Ht). exists (all_resources c), (map Group gs ++ tables fo), []. cbn [map app]. rewrite app_nil_r. split; [exact Ht|].
        split; [symmetry; exact H1|]. right. split; [reflexivity|]. exists gs, fo, RNil. split; [exact Hr|]. split; [right; split; [reflexivity|apply sig_snoc; auto]|reflexivity].
      * destruct H7 as (gs & fo & Hr & Ht). exists (all_resources c), (map Group gs ++ tables fo), []. cbn [map app]. rewrite app_nil_r. split; [exact Ht|].
        split; [symmetry; exact H1|]. right. split; [reflexivity|]. exists gs, fo, RFinished. split; [exact Hr|]. split; [left; reflexivity|reflexivity].
      * right. exact H7.
    + destruct Hi as (rs & outs & rel & H1 & H2 & H3). destruct (defers s) as [|r l] eqn:Hd; injection Hs as <-; unfold inv; cbn [ph set_ph cancelled trace defers seen].
      * rewrite app_nil_r in H2. subst rel. exists rs, outs. split; [exact H1|]. exact (ends_snoc c ls s _ rs outs _ H3 eq_refl).
      * exists rs, outs, (rel ++ [r]). rewrite map_app, H1, <- !app_assoc. cbn [map app]. split; [reflexivity|]. split; [exact H2|].
        exact (ends_snoc c ls s _ rs outs _ H3 eq_refl).
    + discriminate.
  - (* closer *)
    unfold step_close in Hs. unfold inv in Hi. destruct (ph s) as [l|[|] r| |e] eqn:Hp; try discriminate. destruct (cancelled s) eqn:Hc; [|discriminate].
    injection Hs as <-. unfold inv. cbn [ph set_ph cancelled trace defers seen]. destruct Hi as (H1 & H2 & H3 & H4 & H5).
    split; [exact H1|]. split; [auto|]. split; [auto|]. split; [intros _; destruct (H4 eq_refl) as [H|H]; [left; apply sig_snoc; exact H|right; exact H]|].
    destruct r as [i m|rl r|r]; [exact H5| |]; destruct H5 as [H5 H6]; (split; [intros Hr; apply sig_snoc; auto|exact H6]).
  - (* record *)
    unfold step_record in Hs. unfold inv in Hi. assert (Hun : sig (ls ++ [LRecord e]) -> sig ls) by (apply sig_unsnoc; discriminate).
    destruct (ph s) as [l|[|] [i m|rl r|r]| |ex] eqn:Hp; try discriminate. destruct (more c i) eqn:Hm; cbn [negb] in Hs; [|discriminate].
    destruct Hi as (H1 & H2 & H3 & H4 & gs & Ht & Hl).
    assert (H4' : cancelled s = true -> sig ls) by (intros Hc; destruct (H4 Hc) as [H|[H|H]]; [exact H|discriminate..]).
    destruct (handle (c_delta c) m e) as [| |m' w k] eqn:Hh; injection Hs as <-; unfold inv; cbn [ph set_ph log_eff cancelled trace defers seen].
    + split; [exact H1|]. split; [discriminate|]. split; [auto|]. split; [intros Hc; left; apply sig_snoc; auto|]. split; [discriminate|].
      exists gs, []. rewrite app_nil_r. split; [|split; [exact Ht|left; reflexivity]].
      unfold res_ok. rewrite (at_loop_bad _ _ _ _ _ e Panicked Hl Hm) by auto. split; reflexivity.
    + split; [exact H1|]. split; [discriminate|]. split; [auto|]. split; [intros Hc; left; apply sig_snoc; auto|]. split; [discriminate|].
      exists gs, []. rewrite app_nil_r. split; [|split; [exact Ht|left; reflexivity]].
      unfold res_ok. rewrite (at_loop_bad _ _ _ _ _ e Failed Hl Hm) by auto. split; [reflexivity|left; reflexivity].
    + split; [exact H1|]. split; [discriminate|]. split; [auto|]. split; [intros Hc; left; apply sig_snoc; auto|].
      exists (gs ++ w). rewrite map_app, app_assoc, <- Ht. split; [reflexivity|]. exact (at_loop_step c _ gs i m e m' w k Hl Hm Hh).
  - (* read error *)
    unfold step_read_fails in Hs. unfold inv in Hi. assert (Hun : sig (ls ++ [LReadFails]) -> sig ls) by (apply sig_unsnoc; discriminate).
    destruct (ph s) as [l|[|] [i m|rl r|r]| |ex] eqn:Hp; try discriminate. destruct (more c i) eqn:Hm; [|discriminate].
    destruct Hi as (H1 & H2 & H3 & H4 & gs & Ht & Hl). injection Hs as <-; unfold inv; cbn [ph set_ph log_eff cancelled trace defers seen].
    assert (H4' : cancelled s = true -> sig ls) by (intros Hc; destruct (H4 Hc) as [H|[H|H]]; [exact H|discriminate..]).
    split; [exact H1|]. split; [discriminate|]. split; [auto|]. split; [intros Hc; left; apply sig_snoc; auto|]. split; [discriminate|].
    exists gs, []. rewrite app_nil_r. split; [|split; [exact Ht|left; reflexivity]].
    unfold res_ok. rewrite (at_loop_now _ _ _ _ _ Hl), Hm. split; [reflexivity|right; reflexivity].
  - (* Run *)
    unfold step_run in Hs. unfold inv in Hi. assert (Hun : sig (ls ++ [LRun ok]) -> sig ls) by (apply sig_unsnoc; discriminate).
    destruct (ph s) as [l|closed [i m|[|t rl] r|r]| |ex] eqn:Hp; try discriminate.
    + destruct Hi as (H1 & H2 & H3 & H4 & gs & Ht & Hl).
      assert (H4' : cancelled s = true -> sig ls) by (intros Hc; destruct (H4 Hc) as [H|[H|H]]; [exact H|discriminate..]).
      pose proof (at_loop_now _ _ _ _ _ Hl) as Hn. destruct (more c i) eqn:Hm.
      * destruct closed; [|discriminate]. injection Hs as <-; unfold inv; cbn [ph set_ph log_eff cancelled trace defers seen].
        split; [exact H1|]. split; [auto|]. split; [auto|]. split; [intros Hc; left; apply sig_snoc; auto|]. split; [intros _; apply sig_snoc; auto|].
        exists gs, []. rewrite app_nil_r. split; [|split; [exact Ht|left; reflexivity]]. unfold res_ok. rewrite Hn. split; reflexivity.
      * injection Hs as <-; unfold inv; cbn [ph set_ph log_eff cancelled trace defers seen].
        split; [exact H1|]. split; [auto|]. split; [auto|]. split; [intros Hc; left; apply sig_snoc; auto|]. split; [discriminate|].
        exists gs, []. rewrite app_nil_r. split; [|split; [exact Ht|left; reflexivity]]. unfold res_ok. rewrite Hn. split; reflexivity.
    + destruct Hi as (H1 & H2 & H3 & H4 & H5 & gs & t & Hr & Ht & Hin).
      assert (Ha : exists fo, trace s = base c ++ map Group gs ++ tables fo) by (destruct Hin as [<-|[<-|[]]]; eauto). destruct Ha as [fo Ha].
      assert (H4' : cancelled s = true -> sig ls) by (intros Hc; destruct (H4 Hc) as [H|[H|H]]; [exact H|discriminate..]).
      destruct r; injection Hs as <-; unfold inv; cbn [ph set_ph log_eff cancelled trace defers seen].
      * split; [exact H1|]. split; [auto|]. split; [auto|]. split; [intros Hc; left; apply sig_snoc; auto|]. split; [intros _; apply sig_snoc; auto|]. split; [discriminate|].
        exists gs, fo. auto.
      * split; [exact H1|]. split; [auto|]. split; [auto|]. split; [auto|]. split; [discriminate|]. split; [discriminate|]. exists gs, fo. auto.
      * split; [exact H1|]. split; [auto|]. split; [auto|]. split; [auto|]. split; [discriminate|]. split; [discriminate|]. exists gs, fo. auto.
      * exists gs, fo. auto.
    + destruct Hi as (H1 & H2 & H3 & H4 & H5 & gs & t' & Hr & Ht & Hin).
      injection Hs as <-; unfold inv; cbn [ph set_ph log_eff cancelled trace defers seen].
      assert (H4' : cancelled s = true -> sig ls) by (intros Hc; destruct (H4 Hc) as [H|[H|H]]; [exact H|discriminate..]).
      split; [exact H1|]. split; [auto|]. split; [auto|]. split; [intros Hc; left; apply sig_snoc; auto|]. split; [intros Hq; apply sig_snoc; auto|].
      exists gs, (t' ++ [Table t (match t with Flame => ok | _ => true end)]). split; [exact Hr|]. rewrite Ht, <- !app_assoc. split; [reflexivity|].
      destruct t, rl as [|[| |] [|[| |] [|? ?]]]; cbn [shown In] in Hin; try contradiction; destruct Hin as [<-|[]]; cbn [shown In app tables]; auto.
      unfold tables. destruct ok; auto.
Qed.
Lemma run_steps_app c a : forall b s, run_steps c (a ++ b) s = match run_steps c a s with Some s' => run_steps c b s' | None => None end.
Proof. induction a as [|l a IH]; intros b s; [reflexivity|]. cbn [app run_steps]. destruct (step c s l); [apply IH|reflexivity]. Qed.
Lemma inv_run c ls : forall s, run_steps c ls (init c) = Some s -> inv c ls s.
Proof.
  induction ls as [|l ls IH] using rev_ind; intros s H; [injection H as <-; apply inv_init|].
  rewrite run_steps_app in H. destruct (run_steps c ls (init c)) as [s1|] eqn:H1; [|discriminate]. cbn [run_steps] in H.
  destruct (step c s1 l) as [s2|] eqn:H2; [|discriminate]. injection H as <-. exact (inv_step c ls s1 l s2 (IH s1 eq_refl) H2).
Qed.

(** ** The theorems *)
Lemma clean_exit c ls s : run_steps c ls (init c) = Some s -> ph s = Exited (Status 0) ->
  (In LSignal ls /\ seen s = [] /\ trace s = map Acquired (early_resources c) ++ map Released (rev (early_resources c))) \/
  ((verdict c s = Finished \/ (verdict c s = Closed /\ In LSignal ls)) /\
   exists ok, trace s = map Acquired (all_resources c) ++ groups c s ++ tables ok ++ map Released (rev (all_resources c))).
Proof.
  intros H Hp. apply inv_run in H. unfold inv in H. rewrite Hp in H. destruct H as (rs & outs & Ht & [(-> & -> & Hs & Hg)|(-> & gs & ok & r & [Ho Hr] & Hg & ->)]).
  - left. auto.
  - right. split.
    + unfold verdict. destruct Hg as [->|[-> Hg]]; auto.
    + exists ok. unfold groups. rewrite Ho, Ht, <- !app_assoc. reflexivity.
Qed.
Lemma failed_exit c ls s : run_steps c ls (init c) = Some s -> ph s = Exited (Status 1) ->
  (exists rs rest, all_resources c = rs ++ rest /\ trace s = map Acquired rs /\ seen s = []) \/
  ((verdict c s = Failed \/ verdict c s = Closed) /\ exists ok, trace s = map Acquired (all_resources c) ++ groups c s ++ tables ok).
Proof.
  intros H Hp. apply inv_run in H. unfold inv in H. rewrite Hp in H. destruct H as [H|(gs & ok & [Ho Hr] & Ht)]; [left; exact H|right].
  split; [exact Hr|]. exists ok. unfold groups. rewrite Ho. exact Ht.
Qed.
Lemma panic_exit c ls s : run_steps c ls (init c) = Some s -> ph s = Exited (Status 2) ->
  verdict c s = Panicked /\ exists ok, trace s = map Acquired (all_resources c) ++ groups c s ++ tables ok.
Proof.
  intros H Hp. apply inv_run in H. unfold inv in H. rewrite Hp in H. destruct H as (gs & ok & [Ho Hr] & Ht).
  split; [exact Hr|]. exists ok. unfold groups. rewrite Ho. exact Ht.
Qed.
Lemma statuses c ls s e : run_steps c ls (init c) = Some s -> ph s = Exited e ->
  e = Status 0 \/ e = Status 1 \/ e = Status 2 \/ (e = Killed /\ In LSignal ls).
Proof.
  intros H Hp. apply inv_run in H. unfold inv in H. rewrite Hp in H. destruct e as [z|]; [|auto 6].
  destruct z as [|[p|[p|p|]|]|p]; auto; contradiction.
Qed.
Lemma by_itself c ls s : run_steps c ls (init c) = Some s -> ph s = Exited (Status 0) -> ~ In LSignal ls -> 0 <= c_limit c < 2 ^ 63 ->
  0 < c_limit c /\ Z.of_nat (List.length (groups c s)) = c_limit c.
Proof.
  intros H Hp Hn Hl. destruct (clean_exit c ls s H Hp) as [(Hc & _)|[[Hv|[_ Hc]] _]]; [contradiction| |contradiction].
  unfold groups. rewrite map_length. unfold verdict, run in *. assert (Hi : i64 (c_limit c) = c_limit c).
  { unfold i64. rewrite Z.mod_small by (change W64 with (2 ^ 64); lia). destruct (Z.ltb_spec (c_limit c) (2 ^ 63)); [reflexivity|lia]. }
  rewrite Hi in *. destruct (Z.eqb_spec (c_limit c) 0) as [He|He].
  - exfalso. clear -Hv. revert Hv. generalize (c_limit c) at 1 as i. generalize (@nil (Z * sess)) as m. induction (seen s) as [|e evs IH]; intros m i; [discriminate|].
    cbn [run_loop orb negb]. destruct (handle (c_delta c) m e) as [| |m' w k]; [discriminate..|]. specialize (IH m' (if k then i - 1 else i)).
    destruct (run_loop _ true _ _ evs) as [[a b] d]. exact IH.
  - split; [lia|]. destruct (limit_loop (c_delta c) (seen s) (Z.to_nat (c_limit c)) 0 []) as [Ho Hr]. rewrite Z2Nat.id in Ho, Hr by lia.
    destruct (List.length (out_of (run_loop (c_delta c) true 0 [] (seen s))) <? Z.to_nat (c_limit c))%nat eqn:Hlt.
    + destruct Hr as [Hr _]. exfalso. rewrite Hv in Hr. symmetry in Hr. clear -Hr. revert Hr. generalize 0 as i. generalize (@nil (Z * sess)) as m.
      induction (seen s) as [|e evs IH]; intros m i; [discriminate|].
      cbn [run_loop orb negb]. destruct (handle (c_delta c) m e) as [| |m' w k]; [discriminate..|]. specialize (IH m' (if k then i - 1 else i)).
      destruct (run_loop _ true _ _ evs) as [[a b] d]. exact IH.
    + apply Nat.ltb_ge in Hlt. rewrite Ho, firstn_length. lia.
Qed.

(** ** Termination *)
Definition weight_run (r : runner) : nat := match r with Looping _ _ => 5 | Rendering l _ => 1 + List.length l | Done _ => 0 end.
Definition weight (s : state) : nat :=
  match ph s with
  | Setup l => List.length (defers s) + 2 * List.length l + 9
  | Running closed r => List.length (defers s) + 2 + weight_run r + (if closed then 0 else 1)
  | Unwind => List.length (defers s) + 1
  | Exited _ => 0
  end.
Lemma weight_own c s l s' : step c s l = Some s' -> (if own l then S (weight s') <= weight s else weight s' <= weight s)%nat.
Proof.
  unfold weight. destruct l as [|ok| |e| |ok]; cbn [step own]; intros H.
  - unfold step_signal in H. destruct (ph s) eqn:Hp; [..|discriminate]; destruct (existsb _ _); injection H as <-; cbn [ph set_ph defers]; try rewrite Hp; lia.
  - unfold step_main in H. destruct (ph s) as [[|[|r|] l]|closed r| |e] eqn:Hp.
    + injection H as <-. cbn [ph set_ph defers weight_run List.length]. lia.
    + injection H as <-. destruct ok; cbn [ph set_ph defers List.length]; lia.
    + injection H as <-. cbn [ph set_ph defers List.length]. lia.
    + injection H as <-. destruct (cancelled s); cbn [ph set_ph defers List.length]; lia.
    + destruct closed, r as [i m|rl r|[| | |]]; try discriminate; injection H as <-; cbn [ph set_ph defers weight_run]; lia.
    + destruct (defers s) as [|r l] eqn:Hd; injection H as <-; cbn [ph set_ph defers List.length]; lia.
    + discriminate.
  - unfold step_close in H. destruct (ph s) as [l|[|] r| |e] eqn:Hp; try discriminate. destruct (cancelled s); [|discriminate]. injection H as <-. cbn [ph set_ph defers]. lia.
  - unfold step_record in H. destruct (ph s) as [l|[|] [i m|rl r|r]| |ex] eqn:Hp; try discriminate. destruct (negb _); [discriminate|].
    destruct (handle _ _ _); injection H as <-; cbn [ph set_ph log_eff defers weight_run run_defers List.length]; lia.
  - unfold step_read_fails in H. destruct (ph s) as [l|[|] [i m|rl r|r]| |ex] eqn:Hp; try discriminate. destruct (more _ _); [|discriminate].
    injection H as <-; cbn [ph set_ph log_eff defers weight_run run_defers List.length]; lia.
  - unfold step_run in H. destruct (ph s) as [l|closed [i m|[|t rl] r|r]| |ex] eqn:Hp; try discriminate.
    + destruct (more c i); [destruct closed; [|discriminate]|]; injection H as <-; cbn [ph set_ph log_eff defers weight_run run_defers List.length]; lia.
    + destruct r; injection H as <-; cbn [ph set_ph log_eff defers weight_run run_defers List.length]; lia.
    + injection H as <-; cbn [ph set_ph log_eff defers weight_run run_defers List.length]; lia.
Qed.
Lemma weight_run_steps c ls : forall s s', run_steps c ls s = Some s' -> (List.length (filter own ls) + weight s' <= weight s)%nat.
Proof.
  induction ls as [|l ls IH]; intros s s' H; [injection H as <-; cbn; lia|]. cbn [run_steps] in H. destruct (step c s l) as [s1|] eqn:H1; [|discriminate].
  specialize (IH s1 s' H). pose proof (weight_own c s l s1 H1) as W. cbn [filter]. destruct (own l); cbn [List.length]; lia.
Qed.
Lemma bounded c ls s : run_steps c ls (init c) = Some s -> (List.length (filter own ls) <= 71)%nat.
Proof.
  intros H. pose proof (weight_run_steps c ls _ _ H) as W. assert (Hi : (weight (init c) <= 71)%nat); [|lia].
  unfold weight, init, setup. cbn [ph defers List.length]. destruct (c_lbr c), (c_file c); cbn; lia.
Qed.
Lemma progress c ls s : run_steps c ls (init c) = Some s -> (forall e, ph s <> Exited e) -> In LSignal ls ->
  exists l s', own l = true /\ step c s l = Some s'.
Proof.
  intros H Hn Hs. apply inv_run in H. unfold inv in H. destruct (ph s) as [l|closed r| |e] eqn:Hp; [..|exfalso; exact (Hn e eq_refl)].
  - exists (LMain true). cbn [step own]. unfold step_main. rewrite Hp. destruct l as [|[| |] l]; eexists; split; reflexivity.
  - destruct H as (H1 & H2 & H3 & H4 & H5). specialize (H3 Hs). destruct closed.
    + destruct r as [i m|[|t l] r|r].
      * exists (LRun true). cbn [step own]. unfold step_run. rewrite Hp. destruct (more c i); eexists; split; reflexivity.
      * exists (LRun true). cbn [step own]. unfold step_run. rewrite Hp. destruct r; eexists; split; reflexivity.
      * exists (LRun true). cbn [step own]. unfold step_run. rewrite Hp. eexists; split; reflexivity.
      * exists (LMain true). cbn [step own]. unfold step_main. rewrite Hp. destruct H5 as (_ & H5 & _). destruct r; try (eexists; split; reflexivity). exfalso; exact (H5 eq_refl).
    + exists LClose. cbn [step own]. unfold step_close. rewrite Hp, H3. eexists; split; reflexivity.
  - exists (LMain true). cbn [step own]. unfold step_main. rewrite Hp. destruct (defers s); eexists; split; reflexivity.
Qed.
(** After the reader is closed no record is read. *)
Lemma closed_stays c s l s' : step c s l = Some s' -> (match ph s with Setup _ | Running false _ => False | _ => True end) ->
  (match ph s' with Setup _ | Running false _ => False | _ => True end) /\ seen s' = seen s.
Proof.
  destruct l as [|ok| |e| |ok]; cbn [step]; intros H Hc.
  - unfold step_signal in H. destruct (ph s) as [l|[|] r| |e] eqn:Hp; try contradiction; try discriminate; destruct (existsb _ _); injection H as <-; cbn [ph set_ph seen]; rewrite ?Hp; auto.
  - unfold step_main in H. destruct (ph s) as [l|[|] r| |e] eqn:Hp; try contradiction; try discriminate.
    + destruct r as [i m|rl r|[| | |]]; try discriminate; injection H as <-; cbn; auto.
    + destruct (defers s); injection H as <-; cbn; auto.
  - unfold step_close in H. destruct (ph s) as [l|[|] r| |e] eqn:Hp; try contradiction; discriminate.
  - unfold step_record in H. destruct (ph s) as [l|[|] r| |ex] eqn:Hp; try contradiction; discriminate.
  - unfold step_read_fails in H. destruct (ph s) as [l|[|] r| |ex] eqn:Hp; try contradiction; discriminate.
  - unfold step_run in H. destruct (ph s) as [l|[|] r| |ex] eqn:Hp; try contradiction; try discriminate.
    destruct r as [i m|[|t rl] r|r]; [destruct (more c i)|destruct r| |discriminate]; injection H as <-; cbn; auto.
Qed.

(** A signal before main has looked for one: nothing is attached. *)
Definition early_ok (c : conf) (l : list op) : Prop := exists a b, l = a ++ Poll :: b /\ forall r, In (Acq r) a -> In r (early_resources c).
Definition gone (c : conf) (s : state) : Prop :=
  match ph s with Setup l => cancelled s = true /\ early_ok c l | Running _ _ => False | _ => True end /\
  (forall r, In (Acquired r) (trace s) -> In r (early_resources c)).
Lemma gone_step c s l s' : gone c s -> step c s l = Some s' -> gone c s'.
Proof.
  intros [H1 H2] H. unfold gone. destruct l as [|ok| |e| |ok]; cbn [step] in H.
  - unfold step_signal in H. destruct (ph s) as [l|cl r| |] eqn:E.
    + destruct (existsb _ _); injection H as <-; cbn [ph set_ph cancelled trace]; rewrite ?E; split; auto. destruct H1 as [_ H1]. auto.
    + destruct H1.
    + destruct (existsb _ _); injection H as <-; cbn [ph set_ph cancelled trace]; rewrite ?E; split; auto.
    + discriminate.
  - unfold step_main in H. destruct (ph s) as [[|[|r|] l]|cl r| |e] eqn:E.
    + destruct H1 as [_ (a & b & Hl & _)]. destruct a; discriminate Hl.
    + destruct H1 as [Hc (a & b & Hl & Ha)]. injection H as <-. cbn [ph set_ph trace cancelled]. destruct ok; (split; [|exact H2]); [|exact I].
      split; [exact Hc|]. destruct a as [|x a]; [discriminate Hl|]. injection Hl as <- Hl. exists a, b. split; [exact Hl|]. intros r Hr. apply Ha. right. exact Hr.
    + destruct H1 as [Hc (a & b & Hl & Ha)]. injection H as <-. cbn [ph trace cancelled].
      destruct a as [|x a]; [discriminate Hl|]. injection Hl as <- Hl.
      split; [split; [exact Hc|exists a, b; split; [exact Hl|intros q Hq; apply Ha; right; exact Hq]]|].
      intros q Hq. apply in_app_or in Hq. destruct Hq as [Hq|[Hq|[]]]; [auto|]. injection Hq as ->. apply Ha. left. reflexivity.
    + destruct H1 as [Hc _]. rewrite Hc in H. injection H as <-. cbn [ph set_ph trace]. split; [exact I|exact H2].
    + destruct H1.
    + destruct (defers s) as [|r l]; injection H as <-; cbn [ph set_ph trace]; (split; [exact I|]); [exact H2|].
      intros q Hq. apply in_app_or in Hq. destruct Hq as [Hq|[Hq|[]]]; [auto|discriminate].
    + discriminate.
  - unfold step_close in H. destruct (ph s) as [|[|] r| |]; try discriminate; destruct H1.
  - unfold step_record in H. destruct (ph s) as [|[|] r| |]; try discriminate; destruct H1.
  - unfold step_read_fails in H. destruct (ph s) as [|[|] r| |]; try discriminate; destruct H1.
  - unfold step_run in H. destruct (ph s) as [|cl r| |]; try discriminate; destruct H1.
Qed.
Lemma gone_run c ls : forall s s', gone c s -> run_steps c ls s = Some s' -> gone c s'.
Proof.
  induction ls as [|l ls IH]; intros s s' G H; [injection H as <-; exact G|]. cbn [run_steps] in H.
  destruct (step c s l) as [s1|] eqn:E; [|discriminate]. exact (IH s1 s' (gone_step c s l s1 G E) H).
Qed.
Lemma run_split c a : forall b s, run_steps c (a ++ b) s = match run_steps c a s with Some s1 => run_steps c b s1 | None => None end.
Proof. induction a as [|x a IH]; intros b s; [reflexivity|]. cbn [app run_steps]. destruct (step c s x); [apply IH|reflexivity]. Qed.
Lemma graphs_early c : In Graphs (early_resources c).
Proof. unfold early_resources. apply in_or_app. right. apply in_or_app. right. right. right. left. reflexivity. Qed.
Lemma still_ahead c dn l : setup c = dn ++ l -> ~ In Graphs (acqs dn) -> early_ok c l /\ incl (acqs dn) (early_resources c).
Proof.
  unfold setup, early_ok, early_resources, incl. destruct (c_lbr c), (c_file c); cbn [app]; intros H Hn;
  repeat (destruct dn as [|? dn]; cbn [app] in H;
    [subst l; split; [first [exists [Check; Acq Signals; Check; Check; Acq LbrEvents; Check; Check; Acq ReadObjs; Check; Check; Acq Progs; Check; Acq Graphs]; eexists; split; [reflexivity|cbn [In]; intuition congruence]
      |exists [Check; Acq Signals; Check; Check; Acq ReadObjs; Check; Check; Acq Progs; Check; Acq Graphs]; eexists; split; [reflexivity|cbn [In]; intuition congruence]
      |match goal with |- exists a b, ?q = _ /\ _ =>
         let rec pre q := match q with Poll :: ?r => constr:(@nil op) | ?x :: ?r => let p := pre r in constr:(x :: p) end in
         let p := pre q in exists p; eexists; split; [reflexivity|cbn [In]; intuition congruence] end]
     |cbn [acqs In]; tauto]
    |injection H as <- H; try (exfalso; apply Hn; cbn [acqs In]; tauto)]).
Qed.
Lemma early_signal c ls1 ls2 s1 s : run_steps c ls1 (init c) = Some s1 -> ~ In (Acquired Graphs) (trace s1) ->
  run_steps c (ls1 ++ LSignal :: ls2) (init c) = Some s -> (forall r, In (Acquired r) (trace s) -> In r (early_resources c)).
Proof.
  intros H1 Hn H. rewrite run_split, H1 in H. cbn [run_steps] in H. destruct (step c s1 LSignal) as [s2|] eqn:E; [|discriminate].
  cut (gone c s2). { intros G. exact (proj2 (gone_run c ls2 s2 s G H)). }
  pose proof (inv_run c ls1 s1 H1) as I. unfold inv in I. cbn [step] in E. unfold step_signal in E.
  assert (Hb : forall x, trace s1 = base c ++ x -> False).
  { intros x Hx. apply Hn. rewrite Hx. apply in_or_app. left. unfold base, all_resources. apply in_map. apply in_or_app. left. apply graphs_early. }
  destruct (ph s1) as [l|cl r| |e] eqn:Ep; [..|discriminate].
  - destruct I as (dn & I1 & I2 & _). destruct (still_ahead c dn l I1) as [A B].
    { intros X. apply Hn. rewrite I2. apply in_map. exact X. }
    assert (T : forall r, In (Acquired r) (trace s1) -> In r (early_resources c)).
    { intros r Hr. rewrite I2 in Hr. apply in_map_iff in Hr. destruct Hr as (q & [= ->] & Hq). exact (B r Hq). }
    destruct (existsb _ _); injection E as <-; unfold gone; cbn [ph set_ph cancelled trace]; auto.
  - exfalso. destruct I as (_ & _ & _ & _ & I). destruct r as [i m|l r|r].
    + destruct I as (gs & I & _). exact (Hb _ I).
    + destruct I as (_ & gs & t & _ & I & _). exact (Hb _ I).
    + destruct I as (_ & _ & gs & ok & _ & I). exact (Hb _ I).
  - exfalso. destruct I as (rs & outs & rel & It & _ & [(-> & _)|(-> & _)]).
    + apply Hn. rewrite It. apply in_or_app. left. apply in_map. apply graphs_early.
    + exact (Hb _ It).
Qed.

(** ** What is held at any moment; signals *)
Lemma nodup_all c : NoDup (all_resources c).
Proof. unfold all_resources, early_resources. destruct (c_lbr c), (c_file c); cbn [app]; repeat constructor; cbn [In]; intuition discriminate. Qed.
Lemma nodup_early c : NoDup (early_resources c).
Proof. unfold early_resources. destruct (c_lbr c); cbn [app]; repeat constructor; cbn [In]; intuition discriminate. Qed.
Definition quiet (l : list eff) : Prop := forall e, In e l -> match e with Acquired _ | Released _ => False | _ => True end.
Lemma quiet_app a b : quiet a -> quiet b -> quiet (a ++ b).
Proof. intros A B e H. apply in_app_or in H as [H|H]; [exact (A e H)|exact (B e H)]. Qed.
Lemma quiet_groups gs : quiet (map Group gs).
Proof. intros e H. apply in_map_iff in H as (g & <- & _). exact I. Qed.
Lemma quiet_tables ok : quiet (tables ok).
Proof. intros e H. cbn in H. repeat destruct H as [<-|H]; try contradiction; exact I. Qed.
Lemma quiet_shown l t : In t (shown l) -> quiet t.
Proof.
  intros H e He. unfold shown in H. repeat match type of H with context [match ?x with _ => _ end] => destruct x end; cbn [In] in H;
    repeat destruct H as [<-|H]; try contradiction; cbn in He; repeat destruct He as [<-|He]; try contradiction; exact I.
Qed.
Lemma in_acq r rs q rel : quiet q -> In (Acquired r) (map Acquired rs ++ q ++ map Released rel) <-> In r rs.
Proof.
  intros Q. split.
  - intros H. apply in_app_or in H as [H|H]; [apply in_map_iff in H as (x & Hx & Hi); congruence|].
    apply in_app_or in H as [H|H]; [destruct (Q _ H)|apply in_map_iff in H as (x & Hx & Hi); discriminate].
  - intros H. apply in_or_app. left. apply in_map. exact H.
Qed.
Lemma in_rel r rs q rel : quiet q -> In (Released r) (map Acquired rs ++ q ++ map Released rel) <-> In r rel.
Proof.
  intros Q. split.
  - intros H. apply in_app_or in H as [H|H]; [apply in_map_iff in H as (x & Hx & Hi); discriminate|].
    apply in_app_or in H as [H|H]; [destruct (Q _ H)|apply in_map_iff in H as (x & Hx & Hi); congruence].
  - intros H. apply in_or_app. right. apply in_or_app. right. apply in_map. exact H.
Qed.
Lemma in_split_rev (r : res) rs rel d : NoDup rs -> rev rs = rel ++ d -> (In r d <-> In r rs /\ ~ In r rel).
Proof.
  intros Hn Hr. assert (Hn' : NoDup (rel ++ d)) by (rewrite <- Hr; apply NoDup_rev; exact Hn).
  assert (Hi : In r rs <-> In r (rel ++ d)) by (rewrite <- Hr; apply in_rev). rewrite Hi. split.
  - intros H. split; [apply in_or_app; right; exact H|]. intros H1. clear - Hn' H H1.
    induction rel as [|x rel IH]; [contradiction|]. cbn [app] in Hn'. inversion Hn'; subst. destruct H1 as [->|H1]; [|auto].
    apply H3. apply in_or_app. right. exact H.
  - intros [H H1]. apply in_app_or in H as [H|H]; [contradiction|exact H].
Qed.
Lemma held_iff c ls s : run_steps c ls (init c) = Some s -> (forall e, ph s <> Exited e) ->
  forall r, In r (defers s) <-> In (Acquired r) (trace s) /\ ~ In (Released r) (trace s).
Proof.
  intros H Hn r. apply inv_run in H. unfold inv in H. destruct (ph s) as [l|closed rn| |e] eqn:Hp; [..|destruct (Hn e eq_refl)].
  - destruct H as (dn & _ & Ht & Hd & _). rewrite Ht, Hd, <- in_rev. pose proof (in_acq r (acqs dn) [] [] (fun e x => match x with end)) as A.
    pose proof (in_rel r (acqs dn) [] [] (fun e x => match x with end)) as B. cbn [app map] in A, B. rewrite app_nil_r in A, B. rewrite A, B. cbn [In]. tauto.
  - destruct H as (Hd & _ & _ & _ & Hr). rewrite Hd, <- in_rev.
    assert (E : exists q, quiet q /\ trace s = map Acquired (all_resources c) ++ q ++ map Released []).
    { cbn [map]. destruct rn as [i m|l r0|r0].
      - destruct Hr as (gs & Ht & _). exists (map Group gs). split; [apply quiet_groups|]. rewrite app_nil_r. exact Ht.
      - destruct Hr as (_ & gs & t & _ & Ht & Hs). exists (map Group gs ++ t). split; [apply quiet_app; [apply quiet_groups|eapply quiet_shown; exact Hs]|]. rewrite app_nil_r. exact Ht.
      - destruct Hr as (_ & _ & gs & ok & _ & Ht). exists (map Group gs ++ tables ok). split; [apply quiet_app; [apply quiet_groups|apply quiet_tables]|]. rewrite app_nil_r. exact Ht. }
    destruct E as (q & Q & ->). rewrite in_acq, in_rel by exact Q. cbn [In]. tauto.
  - destruct H as (rs & outs & rel & Ht & Hr & He).
    assert (Q : quiet outs /\ NoDup rs).
    { destruct He as [(-> & -> & _)|(-> & gs & ok & r0 & _ & _ & ->)].
      - split; [intros e []|apply nodup_early].
      - split; [apply quiet_app; [apply quiet_groups|apply quiet_tables]|apply nodup_all]. }
    destruct Q as [Q Nd]. rewrite Ht, in_acq, in_rel by exact Q. apply in_split_rev; assumption.
Qed.
Lemma signals_held s : existsb (res_eqb Signals) (defers s) = true <-> In Signals (defers s).
Proof.
  rewrite existsb_exists. split.
  - intros (x & Hi & Hx). destruct x; try discriminate. exact Hi.
  - intros H. exists Signals. split; [exact H|reflexivity].
Qed.
Lemma signal_effect c ls s : run_steps c ls (init c) = Some s -> (forall e, ph s <> Exited e) -> exists s', step c s LSignal = Some s' /\
  (In (Acquired Signals) (trace s) /\ ~ In (Released Signals) (trace s) -> ph s' = ph s /\ cancelled s' = true) /\
  (~ (In (Acquired Signals) (trace s) /\ ~ In (Released Signals) (trace s)) -> ph s' = Exited Killed).
Proof.
  intros H Hn. pose proof (held_iff c ls s H Hn Signals) as Hi. pose proof (signals_held s) as Hs. cbn [step]. unfold step_signal.
  destruct (ph s) as [l|closed rn| |e] eqn:Hp; [..|destruct (Hn e eq_refl)];
    (destruct (existsb (res_eqb Signals) (defers s)); eexists; (split; [reflexivity|]); split; intros X;
      first [apply Hi, Hs in X; discriminate X | destruct (X (proj1 Hi (proj1 Hs eq_refl))) | cbn; auto]).
Qed.
