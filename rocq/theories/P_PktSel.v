(** * Proofs about M_PktSel. *)
From Coq Require Import List Bool String ZArith Lia.
From Verif Require Import M_Go M_Asm S_Asm P_Asm M_Pkt M_PktSel S_PktSel.
Import ListNotations.
Open Scope string_scope.
Open Scope list_scope.
Open Scope Z_scope.

Section E.
Context {B : Type}.
Variable mov0 : bool -> B.
Implicit Types fs : list (func B).
Definition drop (R : list string) (b : B) fs : list (func B) := map (without R b) (filter (fun f => negb (mem R (f_name f))) fs).
Lemma clear_drop s b (flt : bool) fs : b = mov0 flt -> wf_image fs -> no_head_call fs -> s <> "" -> clear_subprog mov0 (image fs) s flt = image (drop [s] b fs).
Proof.
  intros -> Hw Hh Hs. rewrite (clear_ok B mov0 fs s flt Hw Hs).
  2: { intros f Hf. rewrite (Hh f Hf). intros E. apply Hs. symmetry. exact E. }
  f_equal. unfold drop, redirect, remove, mem, without. cbn [existsb]. rewrite (filter_ext _ (fun f => negb (String.eqb (f_name f) s || false))) by (intros; rewrite orb_false_r; reflexivity).
  assert (Hl : forall f, In f (filter (fun f => negb (String.eqb (f_name f) s || false)) fs) -> In f fs) by (intros f Hf; apply filter_In in Hf; apply Hf).
  apply map_ext_in. intros f Hf. apply Hl in Hf. rewrite (Hh f Hf). destruct (String.eqb_spec "" s) as [E|_]; [exfalso; apply Hs; symmetry; exact E|].
  f_equal. apply map_ext_in. intros i Hi. rewrite orb_false_r. destruct (String.eqb (i_ref i) s); [|reflexivity].
  destruct Hw as (_ & Hw). rewrite (proj2 (Hw f Hf) i Hi). reflexivity.
Qed.
Lemma names_drop R b fs n : In n (map f_name (drop R b fs)) <-> In n (map f_name fs) /\ mem R n = false.
Proof.
  unfold drop. rewrite map_map. cbn [without f_name]. rewrite !in_map_iff. setoid_rewrite filter_In. split.
  - intros (f & <- & Hf & Hm). rewrite negb_true_iff in Hm. split; [exists f; auto|exact Hm].
  - intros ((f & <- & Hf) & Hm). exists f. rewrite Hm. auto.
Qed.
Lemma wf_drop R b fs : wf_image fs -> wf_image (drop R b fs).
Proof.
  intros (H1 & H2). split.
  - unfold drop. rewrite map_map. cbn [without f_name]. clear H2. induction fs as [|f fs IH]; cbn [filter map]; [constructor|]. inversion H1; subst.
    destruct (mem R (f_name f)); cbn [negb]; [auto|]. cbn [map]. constructor; [|auto]. intros Hin. apply H2. apply in_map_iff in Hin.
    destruct Hin as (g & <- & Hg). apply in_map. apply filter_In in Hg. apply Hg.
  - intros f Hf. unfold drop in Hf. apply in_map_iff in Hf. destruct Hf as (g & <- & Hg). apply filter_In in Hg. destruct Hg as (Hg & _).
    destruct (H2 g Hg) as (A1 & A2). split; [exact A1|]. cbn [without f_rest]. intros i Hi. apply in_map_iff in Hi. destruct Hi as (j & <- & Hj).
    destruct (existsb _ R); [reflexivity|]. apply A2. exact Hj.
Qed.
Lemma drop_app R S b fs : (forall f i, In f fs -> In i (f_rest f) -> True) -> mem S "" = false -> drop S b (drop R b fs) = drop (R ++ S) b fs.
Proof.
  intros _ He. unfold drop. induction fs as [|f fs IH]; [reflexivity|]. cbn [filter]. unfold mem in *. rewrite existsb_app.
  destruct (existsb (String.eqb (f_name f)) R) eqn:E1; cbn [negb orb]; [exact IH|]. cbn [map filter without f_name].
  destruct (existsb (String.eqb (f_name f)) S) eqn:E2; cbn [negb]; [exact IH|]. cbn [map]. rewrite IH. f_equal.
  unfold without. cbn [f_name f_ref f_head f_rest]. f_equal. rewrite map_map. apply map_ext. intros i. rewrite existsb_app.
  destruct (existsb (String.eqb (i_ref i)) R); cbn [orb i_ref]; [rewrite He|]; reflexivity.
Qed.
Lemma head_drop R b fs : no_head_call fs -> no_head_call (drop R b fs).
Proof. intros H f Hf. unfold drop in Hf. apply in_map_iff in Hf. destruct Hf as (g & <- & Hg). cbn. apply H. apply filter_In in Hg. apply Hg. Qed.
Lemma closed_drop ext R b fs : no_head_call fs -> closed ext fs -> closed ext (drop R b fs).
Proof.
  intros Hh Hc i Hi. unfold image in Hi. apply in_flat_map in Hi. destruct Hi as (f & Hf & Hi). unfold drop in Hf. apply in_map_iff in Hf.
  destruct Hf as (g & <- & Hg). apply filter_In in Hg. destruct Hg as (Hg & Hm). destruct Hi as [<-|Hi].
  - left. cbn. apply Hh. exact Hg.
  - cbn [without f_rest] in Hi. apply in_map_iff in Hi. destruct Hi as (j & <- & Hj). destruct (existsb (String.eqb (i_ref j)) R) eqn:E; [left; reflexivity|].
    rewrite names_drop. destruct (Hc j) as [X|[X|X]]; [|left; exact X|right; left; split; [exact X|exact E]|right; right; exact X].
    apply in_flat_map. exists g. split; [exact Hg|]. right. exact Hj.
Qed.
Lemma drop_nil b fs : drop [] b fs = fs.
Proof.
  unfold drop. cbn [mem existsb negb]. replace (filter (fun _ : func B => true) fs) with fs by (induction fs as [|x l IH]; cbn; congruence).
  rewrite <- (map_id fs) at 2. apply map_ext. intros f. unfold without. cbn [existsb]. rewrite map_id. destruct f. reflexivity.
Qed.
Lemma clears_ok (flt : bool) R : mem R "" = false -> forall fs, wf_image fs -> no_head_call fs -> clears mov0 flt R (image fs) = image (drop R (mov0 flt) fs).
Proof.
  unfold clears. induction R as [|s R IH]; intros He fs Hw Hh; cbn [fold_left]; [rewrite drop_nil; reflexivity|].
  unfold mem in He. cbn [existsb] in He. apply orb_false_iff in He. destruct He as (He1 & He2). apply String.eqb_neq in He1.
  rewrite (clear_drop s (mov0 flt) flt fs eq_refl Hw Hh) by congruence.
  rewrite IH; [|exact He2|apply wf_drop; exact Hw|apply head_drop; exact Hh]. rewrite drop_app; [reflexivity|auto|exact He2].
Qed.
(** redefinition *)
Lemma names_redefine n h t fs : map f_name (redefine n h t fs) = map f_name fs.
Proof. unfold redefine. rewrite map_map. apply map_ext. intros f. destruct (String.eqb (f_name f) n); reflexivity. Qed.
Lemma inv_redefine ext n h t fs : inv ext fs -> (forall i, In i t -> i_sym i = "" /\ (i_ref i = "" \/ In (i_ref i) (map f_name fs) \/ ext (i_ref i))) ->
  inv ext (redefine n h t fs).
Proof.
  intros ((H1 & H2) & H3 & H4) Ht. split; [split|split].
  - rewrite names_redefine. exact H1.
  - intros f Hf. unfold redefine in Hf. apply in_map_iff in Hf. destruct Hf as (g & <- & Hg). destruct (H2 g Hg) as (A1 & A2).
    destruct (String.eqb (f_name g) n); cbn [f_name f_rest]; [|auto]. split; [exact A1|]. intros i Hi. apply Ht. exact Hi.
  - intros f Hf. unfold redefine in Hf. apply in_map_iff in Hf. destruct Hf as (g & <- & Hg). destruct (String.eqb (f_name g) n); apply (H3 g Hg).
  - intros i Hi. rewrite names_redefine. unfold image in Hi. apply in_flat_map in Hi. destruct Hi as (f & Hf & Hi). unfold redefine in Hf. apply in_map_iff in Hf.
    destruct Hf as (g & <- & Hg). destruct (String.eqb (f_name g) n).
    + destruct Hi as [<-|Hi]; [left; cbn; apply (H3 g Hg)|]. cbn [f_rest] in Hi. exact (proj2 (Ht i Hi)).
    + apply H4. apply in_flat_map. exists g. auto.
Qed.
Lemma inv_drop ext R b fs : inv ext fs -> inv ext (drop R b fs).
Proof. intros (H1 & H2 & H3). split; [apply wf_drop; exact H1|]. split; [apply head_drop; exact H2|apply closed_drop; assumption]. Qed.
(** looking up *)
Lemma find_redefine n h t fs m : find_fn m (redefine n h t fs) =
  (if String.eqb m n then option_map (fun f => {| f_name := f_name f; f_ref := f_ref f; f_head := h; f_rest := t |}) (find_fn m fs) else find_fn m fs).
Proof.
  unfold find_fn, redefine. induction fs as [|f fs IH]; cbn [map find option_map]; [destruct (String.eqb m n); reflexivity|].
  destruct (String.eqb_spec (f_name f) n) as [E|E]; cbn [f_name].
  - destruct (String.eqb_spec (f_name f) m) as [E'|E']; [|exact IH]. subst. rewrite String.eqb_refl. reflexivity.
  - destruct (String.eqb_spec (f_name f) m) as [E'|E']; [|exact IH]. subst m. destruct (String.eqb_spec (f_name f) n); [congruence|reflexivity].
Qed.
Lemma find_drop R b fs m : find_fn m (drop R b fs) = if mem R m then None else option_map (without R b) (find_fn m fs).
Proof.
  unfold find_fn, drop. induction fs as [|f fs IH]; cbn [filter map find option_map]; [destruct (mem R m); reflexivity|].
  destruct (String.eqb_spec (f_name f) m) as [E|E].
  - subst m. destruct (mem R (f_name f)) eqn:Em; cbn [negb].
    + rewrite IH. reflexivity.
    + cbn [map find without f_name]. rewrite String.eqb_refl. reflexivity.
  - destruct (mem R (f_name f)) eqn:Em; cbn [negb]; [exact IH|]. cbn [map find without f_name]. destruct (String.eqb_spec (f_name f) m); [congruence|exact IH].
Qed.
Lemma find_name fs m f : find_fn m fs = Some f -> f_name f = m /\ In f fs.
Proof. unfold find_fn. intros H. apply find_some in H. destruct H as (H1 & H2). apply String.eqb_eq in H2. auto. Qed.
Lemma find_in fs m : In m (map f_name fs) <-> exists f, find_fn m fs = Some f.
Proof.
  split.
  - intros H. apply in_map_iff in H. destruct H as (f & <- & Hf). unfold find_fn. destruct (find (fun g => String.eqb (f_name g) (f_name f)) fs) eqn:E; [eauto|].
    apply (find_none _ _ E) in Hf. rewrite String.eqb_refl in Hf. discriminate.
  - intros (f & Hf). apply find_name in Hf. destruct Hf as (<- & Hf). apply in_map. exact Hf.
Qed.

(** the edits of the packet filter *)
Variables (ldarg : nat -> B) (call exit_ : B) (pcap : string -> bool -> option (list (ins B))) (reject : list (ins B)).
Lemma inject_inv ext stub c t fs : inv ext fs -> stub <> "" -> (forall i, In i t -> i_sym i = "" /\ (i_ref i = "" \/ In (i_ref i) (map f_name fs) \/ ext (i_ref i))) ->
  inject (image fs) stub (c :: t) = image (redefine stub (i_body c) t fs) /\ inv ext (redefine stub (i_body c) t fs).
Proof. intros Hi Hs Ht. split; [apply inject_redefines; [apply Hi|exact Hs]|apply inv_redefine; assumption]. Qed.
Lemma without_good R (b : B) (c : ins B) (t : list (ins B)) : good_code (c :: t) -> mem R "" = false -> map (fun i => if existsb (String.eqb (i_ref i)) R then {| i_sym := ""; i_ref := ""; i_body := b |} else i) t = t.
Proof.
  intros (_ & H) He. rewrite <- (map_id t) at 2. apply map_ext_in. intros i Hi. rewrite (proj2 (H i (or_intror Hi))). unfold mem in He. rewrite He. reflexivity.
Qed.
Lemma edit_ok ext fs expr i k l2 : inv ext fs -> incl stubs (map f_name fs) ->
  (forall b c, pcap expr b = Some c -> good_code c) -> good_code reject -> pcap expr true = Some l2 ->
  exists fs', filter_edit mov0 ldarg call exit_ pcap reject expr i k (image fs) = (image fs', false) /\ inv ext fs' /\
    find_fn "filter_pkt" fs' = Some {| f_name := "filter_pkt"; f_ref := ""; f_head := ldarg i; f_rest := [call_ call (func_of k); plain exit_] |} /\
    (exists c t, l2 = c :: t /\ find_fn "filter_pcap_l2" fs' = Some {| f_name := "filter_pcap_l2"; f_ref := ""; f_head := i_body c; f_rest := t |}) /\
    (k = KSkb -> exists c t, (match pcap expr false with Some l3 => l3 | None => reject end) = c :: t /\
       find_fn "filter_pcap_l3" fs' = Some {| f_name := "filter_pcap_l3"; f_ref := ""; f_head := i_body c; f_rest := t |}) /\
    (forall n, ~ In n ["filter_pkt"; "filter_pcap_l2"; "filter_pcap_l3"] -> find_fn n fs' = if mem (removed k) n then None else option_map (without (removed k) (mov0 true)) (find_fn n fs)).
Proof.
  intros Hi Hs Hg Hr E2. destruct l2 as [|c2 t2]; [destruct (proj1 (Hg _ _ E2) eq_refl)|].
  set (l3 := match pcap expr false with Some l3 => l3 | None => reject end).
  assert (G3 : good_code l3) by (unfold l3; destruct (pcap expr false) as [c|] eqn:E; [apply (Hg _ _ E)|exact Hr]).
  assert (G2 := Hg _ _ E2). destruct l3 as [|c3 t3] eqn:E3; [destruct (proj1 G3 eq_refl)|]. rewrite <- E3. subst l3.
  assert (X : forall fs (c : ins B) (t : list (ins B)), good_code (c :: t) -> forall i0, In i0 t -> i_sym i0 = "" /\ (i_ref i0 = "" \/ In (i_ref i0) (map f_name fs) \/ ext (i_ref i0))).
  { intros fs0 c t (_ & H) j Hj. destruct (H j (or_intror Hj)) as (A1 & A2). auto. }
  destruct (inject_inv ext "filter_pcap_l2" c2 t2 fs Hi ltac:(discriminate) (X fs c2 t2 G2)) as (I1 & V1).
  set (fs1 := redefine "filter_pcap_l2" (i_body c2) t2 fs) in *.
  assert (Hn : forall n, In n stubs -> exists f, find_fn n fs = Some f) by (intros n Hin; apply find_in; apply Hs; exact Hin).
  assert (Hf0 : forall n f, find_fn n fs = Some f -> f_name f = n /\ f_ref f = "").
  { intros n f H. apply find_name in H. destruct H as (H1 & H2). split; [exact H1|]. apply (proj1 (proj2 Hi)). exact H2. }
  assert (Last : forall R fs2, inv ext fs2 -> mem R "" = false -> mem R "filter_pkt" = false -> mem R (func_of k) = false -> map f_name fs2 = map f_name fs ->
    find_fn "filter_pkt" fs2 = find_fn "filter_pkt" fs ->
    let fs' := redefine "filter_pkt" (ldarg i) [call_ call (func_of k); plain exit_] (drop R (mov0 true) fs2) in
    inject (clears mov0 true R (image fs2)) "filter_pkt" (stub_code ldarg call exit_ i (func_of k)) = image fs' /\ inv ext fs' /\
    find_fn "filter_pkt" fs' = Some {| f_name := "filter_pkt"; f_ref := ""; f_head := ldarg i; f_rest := [call_ call (func_of k); plain exit_] |} /\
    (forall n, n <> "filter_pkt" -> find_fn n fs' = if mem R n then None else option_map (without R (mov0 true)) (find_fn n fs2))).
  { intros R fs2 V HR1 HR2 HR3 Hnm Hfp fs'. rewrite (clears_ok true R HR1 fs2 (proj1 V) (proj1 (proj2 V))).
    assert (VD := inv_drop ext R (mov0 true) fs2 V).
    destruct (inject_inv ext "filter_pkt" (plain (ldarg i)) [call_ call (func_of k); plain exit_] _ VD ltac:(discriminate)) as (J1 & J2).
    { intros j [<-|[<-|[]]]; cbn; (split; [reflexivity|]); [right; left|left; reflexivity]. apply names_drop. rewrite Hnm. split; [|exact HR3].
      apply Hs. destruct k; cbn; auto. }
    split; [exact J1|]. split; [exact J2|]. split.
    - unfold fs'. rewrite find_redefine, String.eqb_refl, find_drop, HR2, Hfp. destruct (Hn "filter_pkt") as (f & Hf); [left; reflexivity|].
      rewrite Hf. cbn [option_map without f_name f_ref]. destruct (Hf0 _ _ Hf) as (-> & ->). reflexivity.
    - intros n Hne. unfold fs'. rewrite find_redefine. destruct (String.eqb_spec n "filter_pkt"); [contradiction|]. apply find_drop. }
  assert (L2 : forall R fs2, mem R "" = false -> find_fn "filter_pcap_l2" fs2 = find_fn "filter_pcap_l2" fs1 ->
    option_map (without R (mov0 true)) (find_fn "filter_pcap_l2" fs2) = Some {| f_name := "filter_pcap_l2"; f_ref := ""; f_head := i_body c2; f_rest := t2 |}).
  { intros R fs2 HR ->. unfold fs1. rewrite find_redefine, String.eqb_refl. destruct (Hn "filter_pcap_l2") as (f & Hf); [cbn; auto 8|]. rewrite Hf. cbn [option_map].
    destruct (Hf0 _ _ Hf) as (-> & ->). unfold without. cbn [f_name f_ref f_head f_rest]. rewrite (without_good R _ c2 t2 G2 HR). reflexivity. }
  destruct k.
  - cbn [filter_edit]. unfold filter_skb_edit. rewrite E2. rewrite I1, E3.
    destruct (inject_inv ext "filter_pcap_l3" c3 t3 fs1 V1 ltac:(discriminate) (X fs1 c3 t3 G3)) as (I2 & V2). rewrite I2.
    set (fs2 := redefine "filter_pcap_l3" (i_body c3) t3 fs1) in *.
    assert (Hnm : map f_name fs2 = map f_name fs) by (unfold fs2, fs1; rewrite !names_redefine; reflexivity).
    destruct (Last (removed KSkb) fs2 V2 eq_refl eq_refl eq_refl Hnm) as (J1 & J2 & J3 & J4).
    { unfold fs2, fs1. rewrite !find_redefine. reflexivity. }
    eexists. split; [exact (f_equal (fun x => (x, false)) J1)|]. split; [exact J2|]. split; [exact J3|]. split; [|split].
    + exists c2, t2. split; [reflexivity|]. rewrite J4 by discriminate. change (mem (removed KSkb) "filter_pcap_l2") with false. cbv iota.
      apply L2; [reflexivity|]. unfold fs2. rewrite find_redefine. reflexivity.
    + intros _. exists c3, t3. split; [reflexivity|]. rewrite J4 by discriminate. change (mem (removed KSkb) "filter_pcap_l3") with false. cbv iota.
      unfold fs2. rewrite find_redefine. change (String.eqb "filter_pcap_l3" "filter_pcap_l3") with true. cbv iota. unfold fs1. rewrite find_redefine.
      change (String.eqb "filter_pcap_l3" "filter_pcap_l2") with false. cbv iota. destruct (Hn "filter_pcap_l3") as (f & Hf); [cbn; auto 8|]. rewrite Hf. cbn [option_map].
      destruct (Hf0 _ _ Hf) as (-> & ->). unfold without. cbn [f_name f_ref f_head f_rest]. rewrite (without_good (removed KSkb) _ c3 t3 G3 eq_refl). reflexivity.
    + intros n Hne. rewrite J4 by (intros ->; apply Hne; left; reflexivity). destruct (mem (removed KSkb) n); [reflexivity|]. f_equal. unfold fs2, fs1. rewrite !find_redefine.
      destruct (String.eqb_spec n "filter_pcap_l3"); [subst; destruct Hne; cbn; auto|]. destruct (String.eqb_spec n "filter_pcap_l2"); [subst; destruct Hne; cbn; auto|]. reflexivity.
  - cbn [filter_edit]. unfold filter_xdp_edit. rewrite E2. rewrite I1.
    assert (Hnm : map f_name fs1 = map f_name fs) by (unfold fs1; rewrite !names_redefine; reflexivity).
    destruct (Last (removed KXdp) fs1 V1 eq_refl eq_refl eq_refl Hnm) as (J1 & J2 & J3 & J4).
    { unfold fs1. rewrite !find_redefine. reflexivity. }
    eexists. split; [exact (f_equal (fun x => (x, false)) J1)|]. split; [exact J2|]. split; [exact J3|]. split; [|split].
    + exists c2, t2. split; [reflexivity|]. rewrite J4 by discriminate. change (mem (removed KXdp) "filter_pcap_l2") with false. cbv iota. apply L2; reflexivity.
    + discriminate.
    + intros n Hne. rewrite J4 by (intros ->; apply Hne; left; reflexivity). destruct (mem (removed KXdp) n); [reflexivity|]. f_equal. unfold fs1. rewrite !find_redefine.
      destruct (String.eqb_spec n "filter_pcap_l2"); [subst; destruct Hne; cbn; auto|]. reflexivity.
  - cbn [filter_edit]. unfold filter_xdp_edit. rewrite E2. rewrite I1.
    assert (Hnm : map f_name fs1 = map f_name fs) by (unfold fs1; rewrite !names_redefine; reflexivity).
    destruct (Last (removed KFrame) fs1 V1 eq_refl eq_refl eq_refl Hnm) as (J1 & J2 & J3 & J4).
    { unfold fs1. rewrite !find_redefine. reflexivity. }
    eexists. split; [exact (f_equal (fun x => (x, false)) J1)|]. split; [exact J2|]. split; [exact J3|]. split; [|split].
    + exists c2, t2. split; [reflexivity|]. rewrite J4 by discriminate. change (mem (removed KFrame) "filter_pcap_l2") with false. cbv iota. apply L2; reflexivity.
    + discriminate.
    + intros n Hne. rewrite J4 by (intros ->; apply Hne; left; reflexivity). destruct (mem (removed KFrame) n); [reflexivity|]. f_equal. unfold fs1. rewrite !find_redefine.
      destruct (String.eqb_spec n "filter_pcap_l2"); [subst; destruct Hne; cbn; auto|]. reflexivity.
Qed.
Lemma clear_all_ok ext fs : inv ext fs -> exists fs', filter_clear mov0 (image fs) = image fs' /\ inv ext fs' /\
  forall n, find_fn n fs' = if mem all_removed n then None else option_map (without all_removed (mov0 true)) (find_fn n fs).
Proof.
  intros Hi. exists (drop all_removed (mov0 true) fs). split; [apply clears_ok; [reflexivity|apply Hi|apply Hi]|]. split; [apply inv_drop; exact Hi|]. intros n. apply find_drop.
Qed.
Lemma output_clear_ok ext fs : inv ext fs -> exists fs', output_clear mov0 (image fs) = image fs' /\ inv ext fs' /\
  forall n, find_fn n fs' = if mem recorders n then None else option_map (without recorders (mov0 false)) (find_fn n fs).
Proof.
  intros Hi. exists (drop recorders (mov0 false) fs). split; [apply clears_ok; [reflexivity|apply Hi|apply Hi]|]. split; [apply inv_drop; exact Hi|]. intros n. apply find_drop.
Qed.
Lemma output_edit_ok ext fs i k : inv ext fs -> incl ["output_pkt"; "output_skb"; "output_xdp_buff"; "output_xdp_frame"] (map f_name fs) ->
  exists fs', output_edit mov0 ldarg call exit_ i k (image fs) = image fs' /\ inv ext fs' /\
    find_fn "output_pkt" fs' = Some {| f_name := "output_pkt"; f_ref := ""; f_head := ldarg i; f_rest := [call_ call (out_func k); plain exit_] |} /\
    (forall n, n <> "output_pkt" -> find_fn n fs' = if mem (out_others k) n then None else option_map (without (out_others k) (mov0 false)) (find_fn n fs)).
Proof.
  intros Hi Hs. unfold output_edit. rewrite (clears_ok false (out_others k)) by (try apply Hi; destruct k; reflexivity).
  assert (VD := inv_drop ext (out_others k) (mov0 false) fs Hi).
  destruct (inject_inv ext "output_pkt" (plain (ldarg i)) [call_ call (out_func k); plain exit_] _ VD ltac:(discriminate)) as (J1 & J2).
  { intros j [<-|[<-|[]]]; cbn; (split; [reflexivity|]); [right; left|left; reflexivity]. apply names_drop. split; [apply Hs; destruct k; cbn; auto|destruct k; reflexivity]. }
  eexists. split; [exact J1|]. split; [exact J2|]. split.
  - rewrite find_redefine, String.eqb_refl, find_drop. replace (mem (out_others k) "output_pkt") with false by (destruct k; reflexivity).
    destruct (proj1 (find_in fs "output_pkt")) as (f & Hf); [apply Hs; left; reflexivity|]. rewrite Hf. cbn [option_map without f_name f_ref].
    apply find_name in Hf. destruct Hf as (-> & Hf). rewrite (proj1 (proj2 Hi) f Hf). reflexivity.
  - intros n Hne. rewrite find_redefine. destruct (String.eqb_spec n "output_pkt"); [contradiction|]. apply find_drop.
Qed.
End E.

(** the choice of the parameter *)
Lemma strip_eq t : strip t = underlying t.
Proof. induction t; cbn; auto. Qed.
Lemma struct_bare t : bare t -> struct_of t = points_to t.
Proof.
  unfold bare, struct_of, points_to. rewrite strip_eq. destruct (underlying t) as [| |u|]; try reflexivity. intros ->. reflexivity.
Qed.
Lemma kinds_agree n : output_kind n = option_map fst (filter_kind n).
Proof.
  unfold output_kind, filter_kind. destruct (String.eqb n "sk_buff"), (String.eqb n "__sk_buff"), (String.eqb n "xdp_buff"), (String.eqb n "xdp_md"), (String.eqb n "xdp_frame"); reflexivity.
Qed.
Lemma choices_agree ps : forall i, choose_output i ps = option_map fst (choose_filter i ps).
Proof.
  induction ps as [|p ps IH]; intros i; cbn [choose_output choose_filter option_map]; [reflexivity|]. destruct (struct_of p) as [n|]; [|apply IH].
  rewrite kinds_agree. destruct (filter_kind n) as [[k c]|]; cbn [option_map fst]; [reflexivity|apply IH].
Qed.
Lemma kind_iff n k : packet_kind n k <-> exists c, filter_kind n = Some (k, c).
Proof.
  unfold filter_kind. split.
  - destruct k; cbn; [intros [->| ->]|intros [->| ->]|intros ->]; eexists; reflexivity.
  - intros (c & H). destruct (String.eqb_spec n "sk_buff"); [injection H as <- <-; left; assumption|].
    destruct (String.eqb_spec n "__sk_buff"); [injection H as <- <-; right; assumption|]. destruct (String.eqb_spec n "xdp_buff"); [injection H as <- <-; left; assumption|].
    destruct (String.eqb_spec n "xdp_md"); [injection H as <- <-; right; assumption|]. destruct (String.eqb_spec n "xdp_frame"); [injection H as <- <-; assumption|discriminate].
Qed.
Lemma choose_iff ps : Forall bare ps -> forall i j k, (exists c, choose_filter i ps = Some ((i + j)%nat, k, c)) <-> first_packet ps j k.
Proof.
  induction 1 as [|p ps Hp Hps IH]; intros i j k; cbn [choose_filter].
  - split; [intros (c & H); discriminate|]. intros (t & H & _). destruct j; discriminate.
  - rewrite (struct_bare p Hp).
    assert (Hnot : (forall n k c, points_to p = Some n -> filter_kind n = Some (k, c) -> False) ->
      ((exists c, choose_filter (S i) ps = Some ((i + j)%nat, k, c)) <-> first_packet (p :: ps) j k)).
    { intros Hno. assert (Hnp : forall k', ~ is_packet p k') by (intros k' (n & E & Hk); apply kind_iff in Hk; destruct Hk as (c & Hk); exact (Hno n k' c E Hk)).
      destruct j as [|j].
      - split.
        + intros (c & H). exfalso. assert (G : forall ps i' j' k' c', choose_filter i' ps = Some (j', k', c') -> (i' <= j')%nat).
          { clear. induction ps as [|p ps IH]; intros i' j' k' c' H; cbn [choose_filter] in H; [discriminate|]. destruct (struct_of p) as [n|]; [destruct (filter_kind n) as [[k c]|]|].
            - injection H as <- <- <-. lia.
            - apply IH in H. lia.
            - apply IH in H. lia. }
          apply G in H. lia.
        + intros (t & E & Hk & _). cbn in E. injection E as <-. destruct (Hnp k Hk).
      - replace (i + S j)%nat with (S i + j)%nat by lia. rewrite (IH (S i) j k). split.
        + intros (t & E & Hk & Hm). exists t. split; [exact E|]. split; [exact Hk|]. intros [|q] u k' Hq Eu; [cbn in Eu; injection Eu as <-; apply Hnp|]. apply (Hm q u k'); [lia|exact Eu].
        + intros (t & E & Hk & Hm). exists t. split; [exact E|]. split; [exact Hk|]. intros q u k' Hq Eu. apply (Hm (S q) u k'); [lia|exact Eu]. }
    destruct (points_to p) as [n|] eqn:En; [|apply Hnot; discriminate]. destruct (filter_kind n) as [[k0 c0]|] eqn:Ek.
    + assert (Hpk : is_packet p k0) by (exists n; split; [exact En|apply kind_iff; eauto]). split.
      * intros (c & H). injection H as Hj <- _. assert (j = 0%nat) by lia. subst j. exists p. split; [reflexivity|]. split; [exact Hpk|]. intros q u k' Hq. lia.
      * intros (t & E & Hk & Hm). destruct j as [|j]; [|destruct (Hm 0%nat p k0 ltac:(lia) eq_refl Hpk)]. cbn in E. injection E as <-.
        destruct Hk as (n' & En' & Hk). rewrite En in En'. injection En' as <-. apply kind_iff in Hk. destruct Hk as (c & Hk). rewrite Ek in Hk. injection Hk as <- <-.
        exists c0. rewrite Nat.add_0_r. reflexivity.
    + apply Hnot. intros n' k' c' E1 E2. injection E1 as <-. rewrite Ek in E2. discriminate.
Qed.
Lemma filter_fn_iff k skip m l2 l3 d : filter_fn k skip m l2 l3 d = true <-> matches skip m l2 l3 k d.
Proof.
  unfold matches, filter_fn, packet_bytes. destruct k; [|reflexivity|reflexivity]. destruct (d_mac_len d =? 0); [|reflexivity].
  destruct l3 as [f|]; split; [intros H; eauto|intros (g & E & H); injection E as <-; exact H|discriminate|intros (g & E & _); discriminate].
Qed.
Lemma slot_one ps i : Forall (fun t => slots_of t = 1%nat) (firstn i ps) -> (i <= List.length ps)%nat -> slot ps i = i.
Proof.
  intros H Hl. unfold slot. assert (E : List.length (firstn i ps) = i) by (rewrite firstn_length; lia). rewrite <- E at 2. clear E Hl.
  induction H as [|t l Ht Hl IH]; cbn; [reflexivity|]. rewrite Ht, IH. reflexivity.
Qed.
Lemma verdict_iff skip m l2 l3 at_ ps slots i k : Forall bare ps -> first_packet ps i k -> Forall (fun t => slots_of t = 1%nat) (firstn i ps) ->
  (verdict skip m l2 l3 at_ ps slots = true <-> matches skip m l2 l3 k (at_ (nth (slot ps i) slots 0))).
Proof.
  intros Hb Hf Hs. assert (Hc := proj2 (choose_iff ps Hb 0%nat i k) Hf). destruct Hc as (c & Hc). cbn [Nat.add] in Hc. unfold verdict. rewrite Hc.
  rewrite slot_one; [apply filter_fn_iff|exact Hs|]. destruct Hf as (t & E & _). assert (i < List.length ps)%nat by (apply nth_error_Some; congruence). lia.
Qed.
Lemma choose_none ps : Forall bare ps -> (forall t k, In t ps -> ~ is_packet t k) -> choose_filter 0 ps = None.
Proof.
  intros Hb Hn. destruct (choose_filter 0 ps) as [[[i k] c]|] eqn:E; [|reflexivity]. exfalso.
  destruct (proj1 (choose_iff ps Hb 0%nat i k)) as (t & Et & Hk & _); [exists c; exact E|]. apply nth_error_In in Et. exact (Hn t k Et Hk).
Qed.
Lemma no_packet_passes skip m l2 l3 at_ ps slots : Forall bare ps -> (forall t k, In t ps -> ~ is_packet t k) -> verdict skip m l2 l3 at_ ps slots = true.
Proof.
  intros Hb Hn. unfold verdict. destruct (choose_filter 0 ps) as [[[i k] c]|] eqn:E; [|reflexivity]. exfalso.
  destruct (proj1 (choose_iff ps Hb 0%nat i k)) as (t & Et & Hk & _); [exists c; exact E|]. apply nth_error_In in Et. exact (Hn t k Et Hk).
Qed.
