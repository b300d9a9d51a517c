(** * Proof library for the eBPF machine: a forward-only structural semantics and its relation to
    the program-counter machine [run]. *)
From Coq Require Import ZArith List Bool Lia.
From Verif Require Import M_Ebpf.
Import ListNotations.
Open Scope Z_scope.

Inductive fout :=
| FFall (k : nat) (s : mst)   (* fell off the end with k instructions still to skip *)
| FLabel (s : mst)
| FExit (s : mst)
| FBad.

Fixpoint exec (m : mach) (l : list insn) (skip : nat) (s : mst) : fout :=
  match l with
  | [] => FFall skip s
  | i :: l' =>
      match skip with
      | S k => exec m l' k s
      | O => match step1 m i s with
             | (s', CNext) => exec m l' 0 s'
             | (s', CSkip off) => if off <? 0 then FBad else exec m l' (Z.to_nat off) s'
             | (s', CLabel) => FLabel s'
             | (s', CExit) => FExit s'
             end
      end
  end.

Lemma exec_app m a b k s :
  exec m (a ++ b) k s =
  match exec m a k s with FFall k' s' => exec m b k' s' | o => o end.
Proof.
  revert k s; induction a as [|i a IH]; intros k s; cbn [app exec]; [reflexivity|].
  destruct k as [|k]; [|apply IH].
  destruct (step1 m i s) as [s' [|off| |]]; try reflexivity; [apply IH|].
  destruct (off <? 0); [reflexivity|apply IH].
Qed.

Lemma exec_skip m l k s : exec m l (length l + k) s = FFall k s.
Proof. revert k; induction l as [|i l IH]; intros k; cbn [length exec Nat.add]; [reflexivity|apply IH]. Qed.
Lemma exec_skip0 m l s : exec m l (length l) s = FFall 0 s.
Proof. rewrite <- (Nat.add_0_r (length l)). apply exec_skip. Qed.

(** Jumps stay inside the remaining code and go forward. *)
Definition jump_ok (i : insn) (n : nat) : Prop :=
  match i with
  | IJmpI _ _ _ off | IJmpR _ _ _ off | IJa off => 0 <= off <= Z.of_nat n
  | _ => True
  end.
Fixpoint wfc (l : list insn) : Prop :=
  match l with [] => True | i :: l' => jump_ok i (length l') /\ wfc l' end.

Lemma jump_ok_le i n n' : (n <= n')%nat -> jump_ok i n -> jump_ok i n'.
Proof. intros Hn; destruct i; cbn; lia. Qed.
Lemma wfc_app a b : wfc a -> wfc b -> wfc (a ++ b).
Proof.
  induction a as [|i a IH]; cbn [app wfc]; [tauto|]. intros [Hi Ha] Hb. split; [|auto].
  eapply jump_ok_le; [|exact Hi]. rewrite app_length; lia.
Qed.

Definition no_exit (i : insn) : Prop := match i with IExit => False | _ => True end.

Lemma step1_skip m i s s' off n :
  step1 m i s = (s', CSkip off) -> jump_ok i n -> 0 <= off <= Z.of_nat n.
Proof.
  destruct i; cbn [step1 jump_ok]; intros H Hj; try discriminate;
    try (destruct (jop_sem _ _ _); inversion H; subst; assumption).
  inversion H; subst; assumption.
Qed.

Lemma exec_wf m l k s :
  wfc l -> (k <= length l)%nat ->
  (exists s', exec m l k s = FFall 0 s') \/ (exists s', exec m l k s = FLabel s') \/
  (exists s', exec m l k s = FExit s').
Proof.
  revert k s; induction l as [|i l IH]; intros k s Hw Hk; cbn [exec wfc length] in *.
  - left. assert (k = 0%nat) by lia. subst. eauto.
  - destruct Hw as [Hi Hw]. destruct k as [|k]; [|apply IH; [assumption|lia]].
    destruct (step1 m i s) as [s' [|off| |]] eqn:Hs.
    + apply IH; [assumption|lia].
    + pose proof (step1_skip _ _ _ _ _ _ Hs Hi) as Ho.
      destruct (Z.ltb_spec off 0); [lia|]. apply IH; [assumption|lia].
    + eauto.
    + eauto.
Qed.

Lemma nth_error_pre {A} (pre l : list A) k :
  nth_error (pre ++ l) (length pre + k) = nth_error l k.
Proof. rewrite nth_error_app2 by lia. f_equal; lia. Qed.

(** Correspondence with the pc machine: running from inside a suffix [l] of the program. *)
Lemma run_S m p pre i l fu s :
  code p = pre ++ i :: l ->
  run (S fu) m p (Z.of_nat (length pre)) s =
        let '(s', c) := step1 m i s in
          match c with
          | CNext => run fu m p (Z.of_nat (length pre) + 1) s'
          | CSkip off => run fu m p (Z.of_nat (length pre) + 1 + off) s'
          | CLabel => match label p with
                      | Some l => run fu m p (Z.of_nat l) s'
                      | None => Crash
                      end
          | CExit => Done (rg s' R0) s'
          end.
Proof.
  intros Hc. cbn [run]. destruct (Z.ltb_spec (Z.of_nat (length pre)) 0) as [Hx|_]; [lia|].
  rewrite Nat2Z.id, Hc.
  replace (length pre) with (length pre + 0)%nat at 1 by lia. rewrite nth_error_pre.
  cbn [nth_error]. reflexivity.
Qed.

Lemma run_exec m p pre l : forall k s,
  code p = pre ++ l ->
  exec m l k s <> FBad ->
  exists j, (j <= length l)%nat /\ forall f,
  run (j + f) m p (Z.of_nat (length pre + k)) s =
  match exec m l k s with
  | FExit s' => Done (rg s' R0) s'
  | FLabel s' => match label p with
                 | Some lb => run f m p (Z.of_nat lb) s'
                 | None => Crash
                 end
  | FFall k' s' => run f m p (Z.of_nat (length pre + length l + k')) s'
  | FBad => Crash
  end.
Proof.
  revert pre; induction l as [|i l IH]; intros pre k s Hc Hb.
  - exists 0%nat. split; [cbn; lia|]. intros f. cbn [exec Nat.add length]. f_equal. lia.
  - assert (Hpre : code p = (pre ++ [i]) ++ l) by (rewrite <- app_assoc; exact Hc).
    assert (Hlen : length (pre ++ [i]) = (length pre + 1)%nat) by (rewrite app_length; reflexivity).
    cbn [exec] in *. cbn [length].
    destruct k as [|k].
    + rewrite Nat.add_0_r.
      destruct (step1 m i s) as [s' [|off| |]] eqn:Hs.
      * destruct (IH (pre ++ [i]) 0%nat s' Hpre Hb) as (j & Hj & IHj).
        exists (S j). split; [lia|]. intros f. cbn [Nat.add].
        rewrite (run_S _ _ _ _ _ _ _ Hc), Hs.
        rewrite Hlen, Nat.add_0_r in IHj.
        replace (Z.of_nat (length pre) + 1) with (Z.of_nat (length pre + 1)) by lia.
        rewrite IHj. destruct (exec m l 0 s'); try reflexivity. f_equal; lia.
      * destruct (Z.ltb_spec off 0) as [Hneg|Hpos]; [contradiction|].
        destruct (IH (pre ++ [i]) (Z.to_nat off) s' Hpre Hb) as (j & Hj & IHj).
        exists (S j). split; [lia|]. intros f. cbn [Nat.add].
        rewrite (run_S _ _ _ _ _ _ _ Hc), Hs.
        rewrite Hlen in IHj.
        replace (Z.of_nat (length pre) + 1 + off) with (Z.of_nat (length pre + 1 + Z.to_nat off)) by lia.
        rewrite IHj. destruct (exec m l (Z.to_nat off) s'); try reflexivity. f_equal; lia.
      * exists 1%nat. split; [lia|]. intros f. cbn [Nat.add].
        rewrite (run_S _ _ _ _ _ _ _ Hc), Hs. reflexivity.
      * exists 1%nat. split; [lia|]. intros f. cbn [Nat.add].
        rewrite (run_S _ _ _ _ _ _ _ Hc), Hs. reflexivity.
    + destruct (IH (pre ++ [i]) k s Hpre Hb) as (j & Hj & IHj).
      exists j. split; [lia|]. intros f.
      rewrite Hlen in IHj.
      replace (length pre + S k)%nat with (length pre + 1 + k)%nat by lia.
      rewrite IHj. destruct (exec m l k s); try reflexivity. f_equal; lia.
Qed.
