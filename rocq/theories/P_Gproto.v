(** * Proofs about M_Gproto. *)
From Coq Require Import List Bool String ZArith Lia Sorting.Sorted Permutation.
From Verif Require Import M_Go P_Go M_Gproto S_Gproto P_Tproto P_Kfuncs.
Import ListNotations.
Open Scope string_scope.
Open Scope list_scope.
Open Scope Z_scope.

Lemma subseq_refl {A} (l : list A) : subseq l l.
Proof. induction l; constructor; auto. Qed.
Lemma subseq_nil {A} (l : list A) : subseq [] l.
Proof. induction l; constructor; auto. Qed.
Lemma subseq_app {A} (a b c d : list A) : subseq a b -> subseq c d -> subseq (a ++ c) (b ++ d).
Proof. induction 1; intros Hc; cbn; [exact Hc| |]; constructor; auto. Qed.

Section W.
Variable W : world.
Definition mk (t : Z) : callee := Callee t (label W t) (match size_of W t with Some n => n | None => 0 end).
Definition coh (st : gst) : Prop :=
  (forall ip s, aget Z.eqb ip (g_ips st) = Some s -> s = label W ip) /\
  (forall ip cs, aget Z.eqb ip (g_callees st) = Some cs -> cs = map mk (direct W ip)).
Definition same (a b : gst) : Prop := g_out a = g_out b /\ g_log a = g_log b /\ g_callees a = g_callees b /\ g_polls a = g_polls b.
Lemma same_refl a : same a a. Proof. repeat split. Qed.
Lemma same_trans a b c : same a b -> same b c -> same a c.
Proof. unfold same. intuition congruence. Qed.
Lemma coh_same a b : (forall ip s, aget Z.eqb ip (g_ips b) = Some s -> s = label W ip) -> same b a -> coh a -> coh b.
Proof. intros H (_ & _ & E & _) (_ & Hc). split; [exact H|]. rewrite E. exact Hc. Qed.
Lemma memo_ok ip n p st s st' : coh st -> func_text W n p = label W ip -> memo_text W ip n p st = (s, st') -> s = label W ip /\ coh st' /\ same st' st.
Proof.
  intros Hc E. unfold memo_text. destruct (aget Z.eqb ip (g_ips st)) as [x|] eqn:Ex.
  - intros H. injection H as <- <-. split; [exact (proj1 Hc _ _ Ex)|]. split; [exact Hc|apply same_refl].
  - intros H. injection H as <- <-. split; [exact E|]. split; [|repeat split]. split; [|exact (proj2 Hc)].
    intros j y. unfold put_ip. cbn [g_ips]. rewrite (aget_aput Z.eqb Zeqb_ok). destruct (Z.eqb j ip) eqn:Ej.
    + apply Z.eqb_eq in Ej. intros H. injection H as <-. subst j. exact E.
    + apply (proj1 Hc).
Qed.
Lemma get_ok ip st c st' : coh st -> get_callee W ip st = (c, st') -> coh st' /\ same st' st /\ c = (if known W ip then Some (mk ip) else None).
Proof.
  intros Hc. unfold get_callee, known, size_of, mk.
  destruct (w_prog W ip) as [[[n p] len]|] eqn:Ep.
  - destruct (memo_text W ip n p st) as [s st1] eqn:Em. intros H. injection H as <- <-.
    apply memo_ok in Em; [|exact Hc|unfold label; rewrite Ep; reflexivity]. destruct Em as (-> & H1 & H2). repeat split; try apply H1; try apply H2.
    unfold size_of. rewrite Ep. reflexivity.
  - destruct (w_sym W ip) as [n|] eqn:Es.
    + destruct (w_btf W n) as [p|] eqn:Eb.
      * destruct (memo_text W ip n p st) as [s st1] eqn:Em. intros H. injection H as <- <-.
        apply memo_ok in Em; [|exact Hc|unfold label; rewrite Ep, Es, Eb; reflexivity]. destruct Em as (-> & H1 & H2). repeat split; try apply H1; try apply H2.
        unfold size_of. rewrite Ep, Es. reflexivity.
      * intros H. injection H as <- <-. split; [exact Hc|]. split; [apply same_refl|]. unfold size_of, label. rewrite Ep, Es, Eb. reflexivity.
    + intros H. injection H as <- <-. split; [exact Hc|]. split; [apply same_refl|]. reflexivity.
Qed.
Lemma find_ok ts : forall st cs st', coh st -> find_callees W ts st = (cs, st') ->
  coh st' /\ same st' st /\ cs = map mk (filter (fun t => negb (t =? 0) && known W t) ts).
Proof.
  induction ts as [|t ts IH]; intros st cs st' Hc; cbn [find_callees filter].
  - intros H. injection H as <- <-. split; [exact Hc|]. split; [apply same_refl|reflexivity].
  - destruct (t =? 0); cbn [negb andb]; [apply IH; exact Hc|].
    destruct (get_callee W t st) as [c st1] eqn:Eg. apply get_ok in Eg; [|exact Hc]. destruct Eg as (H1 & H2 & ->).
    destruct (find_callees W ts st1) as [cs1 st2] eqn:Ef. apply IH in Ef; [|exact H1]. destruct Ef as (H3 & H4 & ->).
    intros H. injection H as <- <-. split; [exact H3|]. split; [eapply same_trans; eauto|]. destruct (known W t); reflexivity.
Qed.
Lemma callees_ok ip bytes st cs st' : coh st -> size_of W ip = Some bytes -> callees_of W ip bytes st = (cs, st') ->
  coh st' /\ g_out st' = g_out st /\ g_polls st' = g_polls st /\ cs = map mk (direct W ip) /\
  (g_log st' = g_log st \/ g_log st' = g_log st ++ [(ip, bytes, g_polls st)]).
Proof.
  intros Hc Hs. unfold callees_of. destruct (aget Z.eqb ip (g_callees st)) as [x|] eqn:Ex.
  - intros H. injection H as <- <-. split; [exact Hc|]. split; [reflexivity|]. split; [reflexivity|]. split; [exact (proj2 Hc _ _ Ex)|left; reflexivity].
  - destruct (find_callees W (w_dis W ip bytes) (log_dis ip bytes st)) as [cs1 st1] eqn:Ef. apply find_ok in Ef; [|exact Hc].
    destruct Ef as (H1 & (H2 & H3 & H4 & H5) & ->). intros H. injection H as <- <-.
    assert (E : map mk (filter (fun t => negb (t =? 0) && known W t) (w_dis W ip bytes)) = map mk (direct W ip)) by (unfold direct; rewrite Hs; reflexivity).
    unfold put_callees. cbn [g_out g_log g_polls]. split; [|split; [exact H2|split; [exact H5|split; [exact E|right; exact H3]]]].
    split; [exact (proj1 H1)|]. intros j y. cbn [g_callees]. rewrite (aget_aput Z.eqb Zeqb_ok). destruct (Z.eqb j ip) eqn:Ej.
    + apply Z.eqb_eq in Ej. subst j. intros H. injection H as <-. exact E.
    + apply (proj2 H1).
Qed.
Lemma direct_size ip t : In t (direct W ip) -> exists n, size_of W t = Some n.
Proof.
  unfold direct. destruct (size_of W ip); [|intros []]. rewrite filter_In. intros (_ & H). apply andb_true_iff in H. destruct H as (_ & H).
  unfold known in H. destruct (size_of W t); [eauto|discriminate].
Qed.
Fixpoint tree (fuel : nat) (ip : Z) (depth : nat) : list gline :=
  match fuel with
  | O => []
  | S f => flat_map (fun t => GLine depth (label W t) :: tree f t (S depth)) (direct W ip)
  end.
Definition reach (ip : Z) (k : nat) (x : Z) : Prop := exists p, (List.length p < k)%nat /\ ends W ip p = Some x.
Definition fresh_log (R : Z -> Prop) (st st' : gst) : Prop :=
  exists l, g_log st' = g_log st ++ l /\ Forall (fun e => R (fst (fst e)) /\ size_of W (fst (fst e)) = Some (snd (fst e))) l.
Section C.
Variable cancel : nat -> bool.
Definition res (R : Z -> Prop) (full : list gline) (st st' : gst) : Prop :=
  coh st' /\ (exists l, g_out st' = g_out st ++ l /\ subseq l full /\ ((forall i, cancel i = false) -> l = full)) /\ fresh_log R st st'.
Lemma res_refl R st : coh st -> res R [] st st.
Proof.
  intros H. split; [exact H|]. split; [exists []; rewrite app_nil_r; repeat split; constructor|]. exists []. rewrite app_nil_r. split; [reflexivity|constructor].
Qed.
Lemma res_trans R f1 f2 a b c : res R f1 a b -> res R f2 b c -> res R (f1 ++ f2) a c.
Proof.
  intros (_ & (l1 & E1 & S1 & N1) & (g1 & L1 & F1)) (H & (l2 & E2 & S2 & N2) & (g2 & L2 & F2)). split; [exact H|]. split.
  - exists (l1 ++ l2). rewrite E2, E1, <- app_assoc. split; [reflexivity|]. split; [apply subseq_app; assumption|]. intros Hn. rewrite N1, N2 by exact Hn. reflexivity.
  - exists (g1 ++ g2). rewrite L2, L1, <- app_assoc. split; [reflexivity|]. apply Forall_app. auto.
Qed.
Lemma res_impl (R1 R2 : Z -> Prop) f a b : (forall x, R1 x -> R2 x) -> res R1 f a b -> res R2 f a b.
Proof.
  intros Hi (H & Hl & (g & L & F)). split; [exact H|]. split; [exact Hl|]. exists g. split; [exact L|]. eapply Forall_impl; [|exact F]. cbv beta. intuition.
Qed.
Lemma res_emit R x st : coh st -> res R [x] st (emit x st).
Proof.
  intros H. split; [exact H|]. split; [exists [x]; repeat split; repeat constructor|]. exists []. rewrite app_nil_r. split; [reflexivity|constructor].
Qed.
Lemma parse_ok fuel : forall ip bytes depth st, coh st -> size_of W ip = Some bytes -> res (reach ip fuel) (tree fuel ip depth) st (parse W cancel fuel ip bytes depth st).
Proof.
  induction fuel as [|f IH]; intros ip bytes depth st Hc Hs; cbn [parse tree]; [apply res_refl; exact Hc|].
  destruct (cancel (g_polls st)) eqn:Ec.
  - split; [exact Hc|]. split; [|exists []; rewrite app_nil_r; split; [reflexivity|constructor]].
    exists []. rewrite app_nil_r. split; [reflexivity|]. split; [apply subseq_nil|]. intros Hn. rewrite Hn in Ec. discriminate.
  - destruct (callees_of W ip bytes (poll st)) as [cs st1] eqn:Ecs. apply callees_ok in Ecs; [|exact Hc|exact Hs].
    destruct Ecs as (H1 & H2 & _ & -> & H4).
    assert (Hr : res (reach ip (S f)) [] st st1).
    { split; [exact H1|]. split; [exists []; rewrite app_nil_r, H2; repeat split; constructor|].
      destruct H4 as [H4|H4]; rewrite ?H4; [exists []; rewrite app_nil_r, H4; split; [reflexivity|constructor]|].
      eexists. split; [exact H4|]. constructor; [|constructor]. cbn [fst snd]. split; [|exact Hs]. exists []. cbn. split; [lia|reflexivity]. }
    change (flat_map (fun t => GLine depth (label W t) :: tree f t (S depth)) (direct W ip))
      with ([] ++ flat_map (fun t => GLine depth (label W t) :: tree f t (S depth)) (direct W ip)).
    eapply res_trans; [exact Hr|]. clear Hr H2 H4 Ec Hc.
    enough (G : forall ts, (forall t, In t ts -> exists i, nth_error (direct W ip) i = Some t) -> (forall t, In t ts -> exists n, size_of W t = Some n) ->
      forall st1, coh st1 -> res (reach ip (S f)) (flat_map (fun t => GLine depth (label W t) :: tree f t (S depth)) ts) st1
        (fold_left (fun st c => parse W cancel f (ce_ip c) (ce_bytes c) (S depth) (emit (GLine depth (ce_text c)) st)) (map mk ts) st1)).
    { apply G; [intros t Ht; apply In_nth_error; exact Ht|intros t; apply direct_size|exact H1]. }
    clear H1 st1. induction ts as [|t ts IHt]; intros Hsub Hds st1 H1; cbn [map fold_left flat_map]; [apply res_refl; exact H1|].
    destruct (Hds t (or_introl eq_refl)) as (n & Hn). destruct (Hsub t (or_introl eq_refl)) as (i & Hi).
    assert (Hp : res (reach ip (S f)) (GLine depth (label W t) :: tree f t (S depth)) st1
                   (parse W cancel f (ce_ip (mk t)) (ce_bytes (mk t)) (S depth) (emit (GLine depth (ce_text (mk t))) st1))).
    { change (GLine depth (label W t) :: tree f t (S depth)) with ([GLine depth (label W t)] ++ tree f t (S depth)).
      eapply res_trans; [apply res_emit; exact H1|]. unfold mk. cbn [ce_ip ce_bytes ce_text]. rewrite Hn.
      eapply res_impl; [|apply IH; [exact H1|exact Hn]]. intros x (p & Hl & He). exists (i :: p). cbn [List.length ends]. rewrite Hi. split; [lia|exact He]. }
    eapply res_trans; [exact Hp|]. apply IHt; [intros; apply Hsub; right; assumption|intros; apply Hds; right; assumption|exact (proj1 Hp)].
Qed.
End C.

(** the tree as call paths *)
Fixpoint gpaths (fuel : nat) (ip : Z) : list (list nat) :=
  match fuel with
  | O => []
  | S f => (fix go (i : nat) (l : list Z) : list (list nat) := match l with [] => [] | t :: l' => ([i] :: map (cons i) (gpaths f t)) ++ go (S i) l' end) 0%nat (direct W ip)
  end.
Fixpoint gps (f i : nat) (l : list Z) : list (list nat) := match l with [] => [] | t :: l' => ([i] :: map (cons i) (gpaths f t)) ++ gps f (S i) l' end.
Lemma gpaths_S f ip : gpaths (S f) ip = gps f 0 (direct W ip).
Proof. cbn [gpaths]. generalize 0%nat. induction (direct W ip) as [|t l IH]; intros i; [reflexivity|]. cbn [gps]. f_equal. f_equal. apply IH. Qed.
Definition gp (ip : Z) (f : nat) (p : list nat) : Prop := (1 <= List.length p <= f)%nat /\ exists x, ends W ip p = Some x.
Lemma gps_iff f : (forall ip p, In p (gpaths f ip) <-> gp ip f p) -> forall l i p,
  In p (gps f i l) <-> exists k q t, p = (i + k)%nat :: q /\ nth_error l k = Some t /\ (List.length q <= f)%nat /\ exists x, ends W t q = Some x.
Proof.
  intros IH. induction l as [|t l IHl]; intros i p; cbn [gps].
  - split; [intros []|]. intros (k & q & t & _ & H & _). destruct k; discriminate.
  - rewrite in_app_iff, IHl. cbn [In]. rewrite in_map_iff. split.
    + intros [[<-|(q & <- & Hq)]|(k & q & t' & -> & Hk & Hr)].
      * exists 0%nat, [], t. rewrite Nat.add_0_r. split; [reflexivity|]. split; [reflexivity|]. split; [cbn; lia|]. eexists. reflexivity.
      * apply IH in Hq. destruct Hq as (Hl & Hx). exists 0%nat, q, t. rewrite Nat.add_0_r. split; [reflexivity|]. split; [reflexivity|]. split; [lia|exact Hx].
      * exists (S k), q, t'. split; [f_equal; lia|]. auto.
    + intros (k & q & t' & -> & Hk & Hl & Hx). destruct k as [|k].
      * left. cbn in Hk. injection Hk as <-. rewrite Nat.add_0_r. destruct q as [|j q]; [left; reflexivity|]. right. eexists. split; [reflexivity|].
        apply IH. split; [cbn in *; lia|exact Hx].
      * right. exists k, q, t'. split; [f_equal; lia|]. auto.
Qed.
Lemma gpaths_iff f : forall ip p, In p (gpaths f ip) <-> gp ip f p.
Proof.
  induction f as [|f IH]; intros ip p.
  - cbn [gpaths]. split; [intros []|]. intros (H & _). lia.
  - rewrite gpaths_S, (gps_iff f IH). unfold gp. split.
    + intros (k & q & t & -> & Hk & Hl & x & Hx). cbn [Nat.add]. split; [cbn; lia|]. exists x. cbn [ends]. rewrite Hk. exact Hx.
    + intros (Hl & x & Hx). destruct p as [|i q]; [cbn in Hl; lia|]. cbn [ends] in Hx. destruct (nth_error (direct W ip) i) as [t|] eqn:Ei; [|discriminate].
      exists i, q, t. split; [reflexivity|]. split; [exact Ei|]. split; [cbn in Hl; lia|eauto].
Qed.
Lemma pre_cons i l : StronglySorted pre l -> StronglySorted pre (map (cons i) l).
Proof.
  induction 1 as [|x l Hl IH Hx]; cbn; constructor; [exact IH|]. apply Forall_map. eapply Forall_impl; [|exact Hx]. intros y Hy. right. auto.
Qed.
Lemma gps_head f l : forall i p, In p (gps f i l) -> exists k q, p = k :: q /\ (i <= k)%nat.
Proof.
  induction l as [|t l IH]; intros i p; cbn [gps]; [intros []|]. rewrite in_app_iff. cbn [In]. rewrite in_map_iff.
  intros [[<-|(q & <- & _)]|H]; [eauto|eauto|]. apply IH in H. destruct H as (k & q & -> & Hk). exists k, q. split; [reflexivity|lia].
Qed.
Lemma gpaths_sorted f : forall ip, StronglySorted pre (gpaths f ip).
Proof.
  induction f as [|f IH]; intros ip; [constructor|]. rewrite gpaths_S. generalize 0%nat. induction (direct W ip) as [|t l IHl]; intros i; cbn [gps]; [constructor|].
  apply sorted_app; [|apply IHl|].
  - constructor; [apply pre_cons; apply IH|]. apply Forall_forall. intros p Hp. apply in_map_iff in Hp. destruct Hp as (q & <- & Hq).
    apply gpaths_iff in Hq. destruct Hq as (Hq & _). destruct q; [cbn in Hq; lia|]. right. cbn. auto.
  - intros p q Hp Hq. apply gps_head in Hq. destruct Hq as (k & q' & -> & Hk). destruct Hp as [<-|Hp]; [left; lia|].
    apply in_map_iff in Hp. destruct Hp as (p' & <- & _). left. lia.
Qed.
Definition shows (ip : Z) (d : nat) (l : gline) (p : list nat) : Prop := exists x, ends W ip p = Some x /\ l = GLine (d + List.length p) (label W x).
Lemma tree_lines f : forall ip d, Forall2 (shows ip d) (tree f ip (S d)) (gpaths f ip).
Proof.
  induction f as [|f IH]; intros ip d; [constructor|]. rewrite gpaths_S. cbn [tree].
  assert (G : forall l i, (forall k t, nth_error l k = Some t -> nth_error (direct W ip) (i + k) = Some t) ->
    Forall2 (shows ip d) (flat_map (fun t => GLine (S d) (label W t) :: tree f t (S (S d))) l) (gps f i l)).
  { induction l as [|t l IHl]; intros i Hn; cbn [flat_map gps]; [constructor|].
    assert (Ht : nth_error (direct W ip) i = Some t) by (rewrite <- (Nat.add_0_r i); apply Hn; reflexivity).
    apply Forall2_app.
    - constructor.
      + exists t. cbn [ends]. rewrite Ht. split; [reflexivity|]. cbn [List.length]. rewrite Nat.add_1_r. reflexivity.
      + generalize (IH t (S d)). generalize (tree f t (S (S d))) (gpaths f t). induction 1 as [|x y a b Hxy Hab IHab]; cbn [map]; constructor; [|exact IHab].
        destruct Hxy as (z & Hz & ->). exists z. cbn [ends]. rewrite Ht. split; [exact Hz|]. cbn [List.length]. f_equal. lia.
    - apply IHl. intros k t' Hk. replace (S i + k)%nat with (i + S k)%nat by lia. apply Hn. exact Hk. }
  apply G. intros k t Hk. exact Hk.
Qed.
Lemma tree_is f ip : tree_of W f ip (tree f ip 1).
Proof.
  exists (gpaths f ip). split; [exact (tree_lines f ip 0)|]. split; [apply gpaths_sorted|apply gpaths_iff].
Qed.

(** roots *)
Variable maxd : nat.
Definition sect (r : groot) : list gline := GLine 0 (r_text r) :: tree maxd (r_ip r) 1 ++ [GBlank].
Lemma sect_is r : section W maxd r (sect r).
Proof. exists (tree maxd (r_ip r) 1). split; [reflexivity|apply tree_is]. Qed.
Definition Reach (rs : list groot) (x : Z) : Prop := exists r, In r rs /\ reach (r_ip r) maxd x.
Lemma roots_ok cancel rs all : (forall r, In r rs -> In r all) -> (forall r, In r rs -> size_of W (r_ip r) = Some (r_bytes r)) -> forall st, coh st ->
  res cancel (Reach all) (flat_map sect rs) st (show_roots W cancel maxd rs st).
Proof.
  unfold show_roots. induction rs as [|r rs IH]; intros Ha Hs st Hc; cbn [fold_left flat_map]; [apply res_refl; exact Hc|].
  assert (H : res cancel (Reach all) (sect r) st (show_root W cancel maxd r st)).
  { unfold sect, show_root. change (GLine 0 (r_text r) :: tree maxd (r_ip r) 1 ++ [GBlank]) with ([GLine 0 (r_text r)] ++ tree maxd (r_ip r) 1 ++ [GBlank]).
    eapply res_trans; [apply res_emit; exact Hc|].
    assert (Hp : res cancel (Reach all) (tree maxd (r_ip r) 1) (emit (GLine 0 (r_text r)) st) (parse W cancel maxd (r_ip r) (r_bytes r) 1 (emit (GLine 0 (r_text r)) st))).
    { eapply res_impl; [|apply parse_ok; [exact Hc|apply Hs; left; reflexivity]]. intros x Hx. exists r. split; [apply Ha; left; reflexivity|exact Hx]. }
    eapply res_trans; [exact Hp|]. apply res_emit. exact (proj1 Hp). }
  eapply res_trans; [exact H|]. apply IH; [intros; apply Ha; right; assumption|intros; apply Hs; right; assumption|exact (proj1 H)].
Qed.
Definition full (ks ps : list groot) : list gline := flat_map sect (isort by_name ks) ++ gap ks ps ++ flat_map sect (isort by_name ps).
Lemma coh0 : coh g0. Proof. split; intros ? ? H; discriminate. Qed.
Lemma graph_ok cancel ks ps : sized W (ks ++ ps) -> res cancel (Reach (ks ++ ps)) (full ks ps) g0 (show_graph W cancel maxd ks ps).
Proof.
  intros Hs. unfold show_graph, full.
  assert (H1 : res cancel (Reach (ks ++ ps)) (flat_map sect (isort by_name ks)) g0 (show_roots W cancel maxd (isort by_name ks) g0)).
  { apply roots_ok; [|intros r Hr; apply Hs|exact coh0]; intros; apply in_app_iff; left; apply isort_In in H || apply isort_In in Hr; assumption. }
  destruct ps as [|p ps].
  - replace (gap ks [] ++ flat_map sect (isort by_name [])) with (@nil gline) by (destruct ks; reflexivity). rewrite (app_nil_r (flat_map sect _)). exact H1.
  - eapply res_trans; [exact H1|].
    assert (H2 : forall st, coh st -> res cancel (Reach (ks ++ p :: ps)) (flat_map sect (isort by_name (p :: ps))) st (show_roots W cancel maxd (isort by_name (p :: ps)) st)).
    { intros st Hc. apply roots_ok; [|intros r Hr; apply Hs|exact Hc]; intros; apply in_app_iff; right; apply isort_In in H || apply isort_In in Hr; assumption. }
    destruct ks as [|k ks]; cbn [gap app].
    + apply H2. exact (proj1 H1).
    + change (GBlank :: flat_map sect (isort by_name (p :: ps))) with ([GBlank] ++ flat_map sect (isort by_name (p :: ps))).
      eapply res_trans; [apply res_emit; exact (proj1 H1)|]. apply H2. exact (proj1 H1).
Qed.
End W.

Lemma by_name_sorted l : StronglySorted (fun a b => String.leb (r_name a) (r_name b) = true) (isort by_name l).
Proof.
  apply (isort_sorted (fun a b => String.leb (r_name a) (r_name b) = true)); unfold by_name.
  - intros x y H. exact H.
  - intros x y H. apply sle_total in H. exact H.
  - intros x y z. apply sle_trans.
Qed.
Lemma flat_concat {A B} (f : A -> list B) l : flat_map f l = List.concat (map f l).
Proof. apply flat_map_concat_map. Qed.
Lemma listing_full W maxd ks ps : sized W (ks ++ ps) -> exists ks' ps' sk sp,
  Permutation ks ks' /\ Permutation ps ps' /\
  StronglySorted (fun a b => String.leb (r_name a) (r_name b) = true) ks' /\ StronglySorted (fun a b => String.leb (r_name a) (r_name b) = true) ps' /\
  Forall2 (section W maxd) ks' sk /\ Forall2 (section W maxd) ps' sp /\
  g_out (show_graph W (fun _ => false) maxd ks ps) = List.concat sk ++ gap ks ps ++ List.concat sp.
Proof.
  intros Hs. destruct (graph_ok W maxd (fun _ => false) ks ps Hs) as (_ & (l & E & _ & N) & _).
  exists (isort by_name ks), (isort by_name ps), (map (sect W maxd) (isort by_name ks)), (map (sect W maxd) (isort by_name ps)).
  split; [apply isort_perm|]. split; [apply isort_perm|]. split; [apply by_name_sorted|]. split; [apply by_name_sorted|].
  assert (G : forall rs, Forall2 (section W maxd) rs (map (sect W maxd) rs)) by (induction rs; cbn; constructor; [apply sect_is|assumption]).
  split; [apply G|]. split; [apply G|]. rewrite E, (N (fun _ => eq_refl)). unfold full. rewrite !flat_concat. reflexivity.
Qed.
Lemma interrupted W maxd cancel ks ps : sized W (ks ++ ps) ->
  subseq (g_out (show_graph W cancel maxd ks ps)) (g_out (show_graph W (fun _ => false) maxd ks ps)).
Proof.
  intros Hs. destruct (graph_ok W maxd cancel ks ps Hs) as (_ & (l & E & S & _) & _). destruct (graph_ok W maxd (fun _ => false) ks ps Hs) as (_ & (l' & E' & _ & N) & _).
  rewrite E, E', (N (fun _ => eq_refl)). exact S.
Qed.

(** the log, whatever the sizes *)
Definition linv (cancel : nat -> bool) (st : gst) : Prop :=
  NoDup (map (fun e => fst (fst e)) (g_log st)) /\ (forall e, In e (g_log st) -> aget Z.eqb (fst (fst e)) (g_callees st) <> None) /\
  Forall (fun e => exists i, snd e = S i /\ cancel i = false) (g_log st).
Lemma get_same W ip st : same (snd (get_callee W ip st)) st.
Proof.
  unfold get_callee, memo_text. destruct (w_prog W ip) as [[[n p] len]|].
  - destruct (aget Z.eqb ip (g_ips st)); repeat split.
  - destruct (w_sym W ip) as [n|]; [|repeat split]. destruct (w_btf W n); [|repeat split]. destruct (aget Z.eqb ip (g_ips st)); repeat split.
Qed.
Lemma find_same W ts : forall st, same (snd (find_callees W ts st)) st.
Proof.
  induction ts as [|t ts IH]; intros st; cbn [find_callees]; [repeat split|]. destruct (t =? 0); [apply IH|].
  pose proof (get_same W t st) as Hg. destruct (get_callee W t st) as [c st1]. pose proof (IH st1) as Hf. destruct (find_callees W ts st1) as [cs st2].
  cbn [snd] in *. eapply same_trans; eauto.
Qed.
Lemma callees_linv W cancel ip bytes st : linv cancel st -> (exists i, g_polls st = S i /\ cancel i = false) -> linv cancel (snd (callees_of W ip bytes st)).
Proof.
  intros (H1 & H2 & H3) Hp. unfold callees_of. destruct (aget Z.eqb ip (g_callees st)) as [x|] eqn:Ex; [repeat split; assumption|].
  pose proof (find_same W (w_dis W ip bytes) (log_dis ip bytes st)) as Hf. destruct (find_callees W (w_dis W ip bytes) (log_dis ip bytes st)) as [cs st1].
  destruct Hf as (_ & E2 & E3 & _). cbn [snd] in *. unfold log_dis in E2, E3. cbn [g_log g_callees] in E2, E3. unfold linv, put_callees. cbn [g_log g_callees].
  rewrite E2, E3. rewrite map_app. cbn [map fst]. split; [|split].
  - apply NoDup_app_one || idtac. apply (Permutation_NoDup (l := ip :: map (fun e => fst (fst e)) (g_log st))); [apply Permutation_cons_append|].
    constructor; [|exact H1]. intros Hin. apply in_map_iff in Hin. destruct Hin as (e & <- & He). apply (H2 e He). exact Ex.
  - intros e He. rewrite (aget_aput Z.eqb Zeqb_ok). destruct (Z.eqb (fst (fst e)) ip) eqn:Ee; [discriminate|].
    apply in_app_iff in He. destruct He as [He|[<-|[]]]; [apply H2; exact He|]. cbn [fst] in Ee. rewrite Z.eqb_refl in Ee. discriminate.
  - apply Forall_app. split; [exact H3|]. constructor; [|constructor]. exact Hp.
Qed.
Lemma parse_linv W cancel fuel : forall ip bytes depth st, linv cancel st -> linv cancel (parse W cancel fuel ip bytes depth st).
Proof.
  induction fuel as [|f IH]; intros ip bytes depth st H; cbn [parse]; [exact H|]. destruct (cancel (g_polls st)) eqn:Ec; [exact H|].
  pose proof (callees_linv W cancel ip bytes (poll st) H) as Hc. destruct (callees_of W ip bytes (poll st)) as [cs st1]. cbn [snd] in Hc.
  assert (H1 : linv cancel st1) by (apply Hc; exists (g_polls st); split; [reflexivity|exact Ec]). clear Hc Ec.
  revert st1 H1. induction cs as [|c cs IHc]; intros st1 H1; cbn [fold_left]; [exact H1|]. apply IHc. apply IH. exact H1.
Qed.
Lemma roots_linv W cancel maxd rs : forall st, linv cancel st -> linv cancel (show_roots W cancel maxd rs st).
Proof.
  unfold show_roots. induction rs as [|r rs IH]; intros st H; cbn [fold_left]; [exact H|]. apply IH. unfold show_root.
  change (linv cancel (parse W cancel maxd (r_ip r) (r_bytes r) 1 (emit (GLine 0 (r_text r)) st))). apply parse_linv. exact H.
Qed.
Lemma graph_linv W cancel maxd ks ps : linv cancel (show_graph W cancel maxd ks ps).
Proof.
  unfold show_graph. assert (H0 : linv cancel g0) by (repeat split; [constructor|intros e []|constructor]).
  assert (H1 := roots_linv W cancel maxd (isort by_name ks) g0 H0). destruct ps as [|p ps]; [exact H1|]. apply roots_linv. destruct ks; exact H1.
Qed.
Lemma graph_reach W cancel maxd ks ps ip bytes n : sized W (ks ++ ps) -> In (ip, bytes, n) (g_log (show_graph W cancel maxd ks ps)) ->
  size_of W ip = Some bytes /\ exists r p, In r (ks ++ ps) /\ (List.length p < maxd)%nat /\ ends W (r_ip r) p = Some ip.
Proof.
  intros Hs Hin. destruct (graph_ok W maxd cancel ks ps Hs) as (_ & _ & (l & E & F)). rewrite E in Hin. cbn [g0 g_log app] in Hin.
  rewrite Forall_forall in F. specialize (F _ Hin). cbn [fst snd] in F. destruct F as ((r & Hr & p & Hp & He) & Hz). split; [exact Hz|]. exists r, p. auto.
Qed.
(** after an interrupt the calls of the current function are still listed *)
Lemma dead_parse W cancel fuel ip bytes depth st : (forall i, (g_polls st <= i)%nat -> cancel i = true) ->
  g_out (parse W cancel fuel ip bytes depth st) = g_out st /\ (g_polls st <= g_polls (parse W cancel fuel ip bytes depth st))%nat.
Proof. intros H. destruct fuel; cbn [parse]; [split; [reflexivity|lia]|]. rewrite H by lia. cbn. split; [reflexivity|lia]. Qed.
Lemma prints_on W fuel ip bytes depth st : coh W st -> size_of W ip = Some bytes -> g_polls st = 0%nat ->
  g_out (parse W (fun i => (0 <? i)%nat) (S fuel) ip bytes depth st) = g_out st ++ map (fun t => GLine depth (label W t)) (direct W ip).
Proof.
  intros Hc Hs Hp. cbn [parse]. rewrite Hp. change (0 <? 0)%nat with false. cbv iota. destruct (callees_of W ip bytes (poll st)) as [cs st1] eqn:E.
  apply callees_ok in E; [|exact Hc|exact Hs]. destruct E as (_ & E1 & E2 & -> & _). cbn [poll g_out g_polls] in E1, E2. rewrite <- E1. rewrite Hp in E2.
  assert (Hge : (1 <= g_polls st1)%nat) by lia. clear E1 E2 Hc Hs. revert st1 Hge.
  induction (direct W ip) as [|t ts IH]; intros st1 Hge; cbn [map fold_left]; [rewrite app_nil_r; reflexivity|].
  assert (D := dead_parse W (fun i => (0 <? i)%nat) fuel (ce_ip (mk W t)) (ce_bytes (mk W t)) (S depth) (emit (GLine depth (ce_text (mk W t))) st1)).
  destruct D as (D1 & D2). { intros i Hi. apply Nat.ltb_lt. cbn in Hi. lia. }
  rewrite IH by (eapply Nat.le_trans; [exact Hge|exact D2]). rewrite D1. cbn [emit g_out]. rewrite <- app_assoc. reflexivity.
Qed.
