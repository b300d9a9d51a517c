(** * Proofs: lost events. *)
From Coq Require Import ZArith List Bool Lia String.
From Verif Require Import M_Go P_Go M_Sess S_Sess P_Sess S_Lossy.
Import ListNotations.
Open Scope Z_scope.

Definition frames (st : stacks) (sl : seen_stacks) : Prop := forall t, st t = map fst (sl t).
Lemma frames_push st sl t fr b : frames st sl -> frames (upds st t (fr :: st t)) (push_seen sl t (fr, b)).
Proof. intros H x. unfold upds, push_seen. destruct (x =? t); [|apply H]. cbn [map fst]. rewrite (H t). reflexivity. Qed.
Lemma frames_pop st sl t fr l : frames st sl -> st t = fr :: l -> frames (upds st t l) (pop_seen sl t).
Proof.
  intros H Hst x. unfold upds, pop_seen. destruct (x =? t); [|apply H]. specialize (H t). rewrite Hst in H.
  destruct (sl t) as [|[f b] r]; [discriminate|]. cbn [map fst tl] in *. congruence.
Qed.
Lemma kept_nil {A} (m : list bool) : kept m (@nil A) = [].
Proof. destruct m; reflexivity. Qed.
Lemma kept_cons {A} m (x : A) l : kept m (x :: l) = if hd true m then x :: kept (tl m) l else kept (tl m) l.
Proof. destruct m as [|b m]; reflexivity. Qed.

Definition linv (m : sessions) (sl : seen_stacks) (used : list Z) : Prop :=
  NoDup (keys m) /\ incl (keys m) used /\
  (forall t fr got, In (fr, got) (sl t) -> f_pass fr = true -> 0 < f_sid fr < 2 ^ 64 /\ In (f_sid fr) used /\
     aget Z.eqb (f_sid fr) m = if got then Some {| s_started := u32 (f_ns fr); s_outs := [line (f_text fr) None]; s_ts := []; s_last := 0 |} else None) /\
  (forall t, NoDup (map f_sid (filter f_pass (map fst (sl t))))) /\
  (forall t1 t2 x y, In x (sl t1) -> In y (sl t2) -> f_pass (fst x) = true -> f_pass (fst y) = true -> f_sid (fst x) = f_sid (fst y) -> t1 = t2).
Lemma linv_init : linv [] no_seen [].
Proof. split; [constructor|]. split; [intros x []|]. split; [intros t fr got []|]. split; [intros t; constructor|intros t1 t2 x y []]. Qed.

Lemma push_in sl t x y z : In y (push_seen sl t x z) -> (z = t /\ y = x) \/ In y (sl z).
Proof. unfold push_seen. destruct (Z.eqb_spec z t) as [->|]; [|auto]. intros [<-|H]; auto. Qed.
Lemma pop_in sl t y z : In y (pop_seen sl t z) -> In y (sl z).
Proof. unfold pop_seen. destruct (Z.eqb_spec z t) as [->|]; [|auto]. destruct (sl t); [auto|]. right. assumption. Qed.

(** One accepted call: m' is the table with the new session (delivered) or the old one (lost). *)
Lemma linv_push m sl used t f sid ns txt (b : bool) : linv m sl used -> 0 < sid < 2 ^ 64 -> ~ In sid used ->
  linv (if b then aput Z.eqb sid (add_out (new_sess (u32 ns) false) (line txt None)) (sess_add m sid (u32 ns) false) else m)
       (push_seen sl t ({| f_func := f; f_sid := sid; f_ns := ns; f_pass := true; f_text := txt |}, b)) (sid :: used).
Proof.
  intros (Hnd & Hk & Hin & Hds & Hdt) Hs Hu. set (fr := {| f_func := f; f_sid := sid; f_ns := ns; f_pass := true; f_text := txt |}).
  assert (Hold : forall t' x g, In (x, g) (sl t') -> f_pass x = true -> f_sid x <> sid).
  { intros t' x g Hx Hp He. destruct (Hin t' x g Hx Hp) as (_ & Hi & _). apply Hu. rewrite <- He. exact Hi. }
  split; [destruct b; [apply (NoDup_aput _ Zeqb_ok), (NoDup_aput _ Zeqb_ok)|]; exact Hnd|]. split; [|split; [|split]].
  - destruct b; [|intros x Hx; right; exact (Hk x Hx)]. intros x Hx. unfold sess_add in Hx. apply (keys_aput _ Zeqb_ok) in Hx as [->|Hx]; [left; reflexivity|].
    apply (keys_aput _ Zeqb_ok) in Hx as [->|Hx]; [left; reflexivity|right; exact (Hk x Hx)].
  - intros t' x g Hx Hp. apply push_in in Hx as [[-> [= -> ->]]|Hx].
    + split; [exact Hs|]. split; [left; reflexivity|]. cbn [f_sid fr]. destruct b.
      * rewrite (aget_aput _ Zeqb_ok), Z.eqb_refl. reflexivity.
      * apply (aget_None _ Zeqb_ok). intros Hc. exact (Hu (Hk _ Hc)).
    + destruct (Hin t' x g Hx Hp) as (Hr & Hi & Ha). split; [exact Hr|]. split; [right; exact Hi|]. rewrite <- Ha. destruct b; [|reflexivity].
      rewrite (aget_aput _ Zeqb_ok). unfold sess_add. rewrite (aget_aput _ Zeqb_ok).
      destruct (Z.eqb_spec (f_sid x) sid) as [He|]; [exfalso; exact (Hold _ _ _ Hx Hp He)|reflexivity].
  - intros t'. unfold push_seen. destruct (Z.eqb_spec t' t) as [->|]; [|apply Hds]. cbn [map fst filter f_pass fr f_sid]. constructor; [|apply Hds].
    rewrite in_map_iff. intros (x & He & Hx). apply filter_In in Hx as [Hx Hp]. apply in_map_iff in Hx as ([x' g] & <- & Hx).
    exact (Hold _ _ _ Hx Hp He).
  - intros t1 t2 [x gx] [y gy] Hx Hy Hp1 Hp2 He. cbn [fst] in *.
    apply push_in in Hx as [[-> [= -> ->]]|Hx]; apply push_in in Hy as [[-> [= -> ->]]|Hy].
    + reflexivity.
    + exfalso. exact (Hold _ _ _ Hy Hp2 (eq_sym He)).
    + exfalso. exact (Hold _ _ _ Hx Hp1 He).
    + exact (Hdt t1 t2 _ _ Hx Hy Hp1 Hp2 He).
Qed.
Lemma linv_push_rej m sl used t fr b : linv m sl used -> f_pass fr = false -> linv m (push_seen sl t (fr, b)) used.
Proof.
  intros (Hnd & Hk & Hin & Hds & Hdt) Hp. split; [exact Hnd|]. split; [exact Hk|]. split; [|split].
  - intros t' x g Hx Hpx. apply push_in in Hx as [[-> [= -> ->]]|Hx]; [congruence|]. exact (Hin _ _ _ Hx Hpx).
  - intros t'. unfold push_seen. destruct (Z.eqb_spec t' t) as [->|]; [|apply Hds]. cbn [map fst filter]. rewrite Hp. apply Hds.
  - intros t1 t2 [x gx] [y gy] Hx Hy Hp1 Hp2 He. cbn [fst] in *.
    apply push_in in Hx as [[-> [= -> ->]]|Hx]; [congruence|]. apply push_in in Hy as [[-> [= -> ->]]|Hy]; [congruence|].
    exact (Hdt t1 t2 _ _ Hx Hy Hp1 Hp2 He).
Qed.
Lemma linv_pop m sl used t : linv m sl used -> linv m (pop_seen sl t) used.
Proof.
  intros (Hnd & Hk & Hin & Hds & Hdt). split; [exact Hnd|]. split; [exact Hk|]. split; [|split].
  - intros t' x g Hx. exact (Hin t' x g (pop_in _ _ _ _ Hx)).
  - intros t'. unfold pop_seen. destruct (Z.eqb_spec t' t) as [->|]; [|apply Hds]. specialize (Hds t). destruct (sl t) as [|[x g] r]; [exact Hds|].
    cbn [tl map fst filter] in *. destruct (f_pass x); [|exact Hds]. cbn [map] in Hds. inversion Hds. assumption.
  - intros t1 t2 x y Hx Hy. exact (Hdt t1 t2 x y (pop_in _ _ _ _ Hx) (pop_in _ _ _ _ Hy)).
Qed.
Lemma linv_del m sl used t fr g l : linv m sl used -> sl t = (fr, g) :: l -> f_pass fr = true -> linv (adel Z.eqb (f_sid fr) m) (pop_seen sl t) used.
Proof.
  intros Hl Hsl Hp. pose proof (linv_pop _ _ _ t Hl) as (_ & _ & _ & Hds' & Hdt'). destruct Hl as (Hnd & Hk & Hin & Hds & Hdt).
  split; [apply NoDup_adel; exact Hnd|]. split; [intros x Hx; exact (Hk x (keys_adel_incl _ _ _ _ Hx))|]. split; [|split; assumption].
  intros t' x gx Hx Hpx. destruct (Hin t' x gx (pop_in _ _ _ _ Hx) Hpx) as (Hr & Hi & Ha). split; [exact Hr|]. split; [exact Hi|].
  rewrite (aget_adel _ Zeqb_ok _ _ _ Hnd). destruct (Z.eqb_spec (f_sid x) (f_sid fr)) as [He|]; [|exact Ha].
  exfalso. assert (t' = t) as ->. { apply (Hdt t' t (x, gx) (fr, g)); [apply (pop_in _ _ _ _ Hx)|rewrite Hsl; left; reflexivity|exact Hpx|exact Hp|exact He]. }
  unfold pop_seen in Hx. rewrite Z.eqb_refl, Hsl in Hx. cbn [tl] in Hx. specialize (Hds t). rewrite Hsl in Hds. cbn [map fst filter] in Hds. rewrite Hp in Hds.
  cbn [map] in Hds. inversion Hds as [|? ? Hni _]. apply Hni. apply in_map_iff. exists x. split; [exact He|]. apply filter_In. split; [|exact Hpx].
  apply in_map_iff. exists (x, gx). auto.
Qed.

Lemma handle_entry delta m sid ns txt :
  handle delta m (entry_event sid ns txt) = HOk (aput Z.eqb sid (add_out (new_sess (u32 ns) false) (line txt None)) (sess_add m sid (u32 ns) false)) [] false.
Proof.
  unfold handle, entry_event. cbn [ev_type ev_short ev_flags ev_sid ev_ns ev_err ev_text Z.eqb Pos.eqb orb].
  change (required_session bit_both) with true. cbn iota. change (have_flag bit_both flag_graph) with false.
  unfold sess_get, sess_add at 1. rewrite (aget_aput _ Zeqb_ok), Z.eqb_refl. reflexivity.
Qed.
Lemma sid_back sid : 0 < sid < 2 ^ 64 -> u64 (u64 (sid - 1) + 1) = sid.
Proof. intros H. unfold u64. rewrite (Z.mod_small (sid - 1)) by (unfold W64; lia). rewrite Z.mod_small by (unfold W64; lia). lia. Qed.
Lemma handle_exit_found delta m sid ns0 txt0 ns txt : 0 < sid < 2 ^ 64 ->
  aget Z.eqb sid m = Some {| s_started := u32 ns0; s_outs := [line txt0 None]; s_ts := []; s_last := 0 |} ->
  handle delta m (exit_event (u64 (sid - 1)) ns txt) =
  if dur32 ns0 ns <? delta then HOk (adel Z.eqb sid m) [] false
  else HOk (adel Z.eqb sid m) [[line txt0 None; line txt (Some (dur32 ns0 ns))]] true.
Proof.
  intros Hs Ha. unfold handle, exit_event. cbn [ev_type ev_short ev_flags ev_sid ev_ns ev_err ev_text Z.eqb Pos.eqb orb].
  change (required_session bit_both) with true. cbn iota. unfold sess_get_and_del. rewrite (sid_back sid Hs), Ha. cbn [s_started s_outs app].
  replace (u32 (u32 ns - u32 ns0)) with (dur32 ns0 ns); [reflexivity|]. unfold dur32, u32. change W32 with (2 ^ 32). rewrite <- Zminus_mod. reflexivity.
Qed.
Lemma handle_exit_none delta m sid ns txt : 0 < sid < 2 ^ 64 -> aget Z.eqb sid m = None ->
  handle delta m (exit_event (u64 (sid - 1)) ns txt) = HOk m [] false.
Proof.
  intros Hs Ha. unfold handle, exit_event. cbn [ev_type ev_short ev_flags ev_sid ev_ns ev_err ev_text Z.eqb Pos.eqb orb].
  change (required_session bit_both) with true. cbn iota. unfold sess_get_and_del. rewrite (sid_back sid Hs), Ha. reflexivity.
Qed.
Lemma adel_absent {V} k (m : list (Z * V)) : aget Z.eqb k m = None -> adel Z.eqb k m = m.
Proof.
  induction m as [|[k' v] m IH]; [reflexivity|]. cbn. destruct (k =? k') eqn:E; [discriminate|]. intros H. cbn. f_equal. exact (IH H).
Qed.

Lemma lossy_spec delta h : forall mask i m st sl used, linv m sl used -> frames st sl -> nested st h -> never_reused used h ->
  fst (fst (run_loop delta true i m (kept mask (ring_spec st h)))) = expected_lossy dur32 delta sl mask h.
Proof.
  induction h as [|[t f sid ns pass txt|t f ns txt] h IH]; intros mask i m st sl used Hl Hfr Hn Hu.
  - cbn [ring_spec expected_lossy]. rewrite kept_nil. reflexivity.
  - cbn [nested never_reused ring_spec expected_lossy] in *. destruct Hu as (Hs & Hne & Hu).
    set (fr := {| f_func := f; f_sid := sid; f_ns := ns; f_pass := pass; f_text := txt |}) in *. destruct pass.
    + cbn [app]. rewrite kept_cons. pose proof (linv_push m sl used t f sid ns txt (hd true mask) Hl Hs (Hne eq_refl)) as Hl'. fold fr in Hl'.
      pose proof (frames_push st sl t fr (hd true mask) Hfr) as Hfr'. destruct (hd true mask).
      * rewrite (run_loop_unlimited_cons _ _ _ _ _ _ _ _ (handle_entry delta m sid ns txt)). cbn [app]. exact (IH _ _ _ _ _ _ Hl' Hfr' Hn Hu).
      * exact (IH _ _ _ _ _ _ Hl' Hfr' Hn Hu).
    + cbn [app]. apply (IH mask i m _ _ used); [apply linv_push_rej; [exact Hl|reflexivity]|apply frames_push; exact Hfr|exact Hn|exact Hu].
  - cbn [nested never_reused ring_spec expected_lossy] in *. pose proof (Hfr t) as Ht. destruct (sl t) as [|[fr got] l] eqn:Hsl; cbn [map fst] in Ht; rewrite Ht in *.
    + apply (IH mask i m st sl used); assumption.
    + destruct Hn as [Hfn Hn]. pose proof (frames_pop st sl t fr (map fst l) Hfr Ht) as Hfr'. destruct (f_pass fr) eqn:Hp.
      * pose proof (linv_del m sl used t fr got l Hl Hsl Hp) as Hl1. pose proof (linv_pop m sl used t Hl) as Hl2.
        destruct Hl as (_ & _ & Hin & _). destruct (Hin t fr got) as (Hr & _ & Ha); [rewrite Hsl; left; reflexivity|exact Hp|].
        cbn [app]. rewrite kept_cons. destruct (hd true mask); [|rewrite andb_false_r; cbn [andb app]; exact (IH _ _ _ _ _ _ Hl2 Hfr' Hn Hu)].
        rewrite andb_true_r. destruct got; cbn [andb].
        -- pose proof (handle_exit_found delta m (f_sid fr) (f_ns fr) (f_text fr) ns txt Hr Ha) as Hh.
           destruct (dur32 (f_ns fr) ns <? delta); cbn [negb]; rewrite (run_loop_unlimited_cons _ _ _ _ _ _ _ _ Hh); cbn [app]; [|f_equal];
             exact (IH _ _ _ _ _ _ Hl1 Hfr' Hn Hu).
        -- rewrite (run_loop_unlimited_cons _ _ _ _ _ _ _ _ (handle_exit_none delta m (f_sid fr) ns txt Hr Ha)). cbn [app].
           exact (IH _ _ _ _ _ _ Hl2 Hfr' Hn Hu).
      * cbn [app]. exact (IH _ _ _ _ _ _ (linv_pop m sl used t Hl) Hfr' Hn Hu).
Qed.

Lemma upds_in st t l x z : In x (upds st t l z) -> (z = t /\ In x l) \/ In x (st z).
Proof. unfold upds. destruct (Z.eqb_spec z t) as [->|]; auto. Qed.
Lemma never_fresh h : forall used st, (forall t fr, In fr (st t) -> f_pass fr = true -> In (f_sid fr) used) -> never_reused used h -> fresh_ids st h.
Proof.
  induction h as [|[t f sid ns pass txt|t f ns txt] h IH]; intros used st Hi Hu; [exact I|..]; cbn [never_reused fresh_ids] in *.
  - destruct Hu as (Hs & Hne & Hu). split; [exact Hs|]. split.
    + intros Hp (t' & fr & Hin & Hpf & <-). exact (Hne Hp (Hi t' fr Hin Hpf)).
    + revert Hu. apply IH. intros t' fr Hin Hp. apply upds_in in Hin as [[-> [<-|Hin]]|Hin].
      * cbn [f_pass f_sid] in *. subst pass. left. reflexivity.
      * destruct pass; [right|]; exact (Hi _ _ Hin Hp).
      * destruct pass; [right|]; exact (Hi _ _ Hin Hp).
  - apply (IH used); [|exact Hu]. intros t' fr Hin Hp. apply upds_in in Hin as [[-> Hin]|Hin]; [|exact (Hi _ _ Hin Hp)].
    apply (Hi t fr); [|exact Hp]. destruct (st t); [exact Hin|right; exact Hin].
Qed.
Lemma never_fresh0 h : never_reused [] h -> fresh_ids no_calls h.
Proof. apply never_fresh. intros t fr []. Qed.
Lemma ring_map_is h : nested no_calls h -> never_reused [] h -> within_limits no_calls h -> ring_map [] h = ring_spec no_calls h.
Proof. intros Hn Hu Hw. apply (ring_map_spec h [] no_calls minv_init); [intros t; exact I|intros t fr []|assumption|apply never_fresh0; exact Hu|assumption]. Qed.
Lemma ring_cookie_is h : never_reused [] h -> ring_cookie (fun _ => []) h = ring_spec no_calls h.
Proof. intros Hu. apply (ring_cookie_spec h (fun _ => []) no_calls); [intros t; reflexivity|intros t fr []|apply never_fresh0; exact Hu]. Qed.

Lemma lossy_map delta mask h : nested no_calls h -> never_reused [] h -> within_limits no_calls h ->
  printed delta (kept mask (ring_map [] h)) = expected_lossy dur32 delta no_seen mask h.
Proof.
  intros Hn Hu Hw. rewrite ring_map_is by assumption. unfold printed, run. apply (lossy_spec delta h mask _ [] no_calls no_seen []);
    [exact linv_init|intros t; reflexivity|assumption|assumption].
Qed.
Lemma lossy_cookie delta mask h : nested no_calls h -> never_reused [] h ->
  printed delta (kept mask (ring_cookie (fun _ => []) h)) = expected_lossy dur32 delta no_seen mask h.
Proof.
  intros Hn Hu. rewrite ring_cookie_is by assumption. unfold printed, run. apply (lossy_spec delta h mask _ [] no_calls no_seen []);
    [exact linv_init|intros t; reflexivity|assumption|assumption].
Qed.

(** Nothing wrong is printed: the groups are some of those printed without loss, in the same order. *)
Lemma sublist_refl {A} (l : list A) : sublist l l.
Proof. induction l; constructor; assumption. Qed.
Lemma lossy_sublist dur delta h : forall mask sl st, frames st sl -> sublist (expected_lossy dur delta sl mask h) (expected dur delta st h).
Proof.
  induction h as [|[t f sid ns pass txt|t f ns txt] h IH]; intros mask sl st Hfr; [constructor|..]; cbn [expected_lossy expected].
  - destruct pass; apply IH; apply frames_push; exact Hfr.
  - pose proof (Hfr t) as Ht. destruct (sl t) as [|[fr got] l] eqn:Hsl; cbn [map fst] in Ht; rewrite Ht; [apply IH; exact Hfr|].
    pose proof (frames_pop st sl t fr (map fst l) Hfr Ht) as Hfr'. destruct (f_pass fr); cbn [andb]; [|apply IH; exact Hfr'].
    destruct (dur (f_ns fr) ns <? delta); cbn [negb]; [rewrite andb_false_r; apply IH; exact Hfr'|rewrite andb_true_r].
    destruct (got && hd true mask); cbn [app]; constructor; apply IH; exact Hfr'.
Qed.

(** ** The table *)
Lemma table_cons delta m e evs m' w c : handle delta m e = HOk m' w c -> table_after delta m (e :: evs) = table_after delta m' evs.
Proof. intros H. cbn [table_after]. rewrite H. reflexivity. Qed.
Lemma no_entry_used h : forall used st id, In id used -> never_reused used h -> ~ entry_seen id (ring_spec st h).
Proof.
  induction h as [|[t f sid ns pass txt|t f ns txt] h IH]; intros used st id Hi Hu; cbn [ring_spec never_reused] in *.
  - intros (e & [] & _).
  - destruct Hu as (_ & Hne & Hu). intros (e & Hin & Ht & Hid). apply in_app_or in Hin as [Hin|Hin].
    + destruct pass; [|destruct Hin]. destruct Hin as [<-|[]]. cbn [ev_sid entry_event] in Hid. subst id. exact (Hne eq_refl Hi).
    + refine (IH (if pass then sid :: used else used) _ id _ Hu (ex_intro _ e (conj Hin (conj Ht Hid)))). destruct pass; [right|]; exact Hi.
  - destruct (st t) as [|fr l]; [exact (IH used st id Hi Hu)|]. intros (e & Hin & Ht & Hid). apply in_app_or in Hin as [Hin|Hin].
    + destruct (f_pass fr); [|destruct Hin]. destruct Hin as [<-|[]]. cbn in Ht. discriminate.
    + apply (IH used (upds st t l) id Hi Hu). exists e; auto.
Qed.
Lemma kept_in {A} (x : A) l : forall mask, In x (kept mask l) -> In x l.
Proof.
  induction l as [|y l IH]; intros mask; [rewrite kept_nil; auto|]. rewrite kept_cons. destruct (hd true mask).
  - intros [<-|H]; [left; reflexivity|right; exact (IH _ H)].
  - intros H. right. exact (IH _ H).
Qed.
Lemma entry_kept id mask evs : entry_seen id (kept mask evs) -> entry_seen id evs.
Proof. intros (e & Hi & H). exists e. split; [exact (kept_in _ _ _ Hi)|exact H]. Qed.
Lemma seen_cons_entry id sid ns txt evs : (entry_seen id (entry_event sid ns txt :: evs) <-> sid = id \/ entry_seen id evs) /\
  (exit_seen id (entry_event sid ns txt :: evs) <-> exit_seen id evs).
Proof.
  split; split.
  - intros (e & [<-|Hi] & Ht & He); [left; exact He|right; exists e; auto].
  - intros [<-|(e & Hi & H)]; [exists (entry_event sid ns txt); cbn; auto|exists e; split; [right; exact Hi|exact H]].
  - intros (e & [<-|Hi] & Ht & He); [discriminate|exists e; auto].
  - intros (e & Hi & H). exists e. split; [right; exact Hi|exact H].
Qed.
Lemma seen_cons_exit id sid ns txt evs : 0 < sid < 2 ^ 64 -> (entry_seen id (exit_event (u64 (sid - 1)) ns txt :: evs) <-> entry_seen id evs) /\
  (exit_seen id (exit_event (u64 (sid - 1)) ns txt :: evs) <-> sid = id \/ exit_seen id evs).
Proof.
  intros Hs. split; split.
  - intros (e & [<-|Hi] & Ht & He); [discriminate|exists e; auto].
  - intros (e & Hi & H). exists e. split; [right; exact Hi|exact H].
  - intros (e & [<-|Hi] & Ht & He); [left|right; exists e; auto]. unfold exit_event in He. cbn [ev_sid] in He. rewrite sid_back in He by assumption. exact He.
  - intros [<-|(e & Hi & H)]; [exists (exit_event (u64 (sid - 1)) ns txt)|exists e; split; [right; exact Hi|exact H]].
    split; [left; reflexivity|]. split; [reflexivity|]. unfold exit_event. cbn [ev_sid]. apply sid_back. exact Hs.
Qed.
Lemma keys_adel {V} (m : list (Z * V)) k x : NoDup (keys m) -> (In x (keys (adel Z.eqb k m)) <-> In x (keys m) /\ x <> k).
Proof.
  intros Hnd. pose proof (aget_adel _ Zeqb_ok k x m Hnd) as H. split.
  - intros Hi. split; [exact (keys_adel_incl _ _ _ _ Hi)|]. intros ->. rewrite Z.eqb_refl in H. apply (aget_None _ Zeqb_ok) in H. exact (H Hi).
  - intros [Hi Hne]. destruct (Z.eqb_spec x k); [contradiction|]. destruct (in_dec Z.eq_dec x (keys (adel Z.eqb k m))) as [|Hn]; [assumption|].
    exfalso. apply (aget_None _ Zeqb_ok) in Hn. rewrite Hn in H. symmetry in H. apply (aget_None _ Zeqb_ok) in H. exact (H Hi).
Qed.
Lemma table_spec delta h id : forall mask m st sl used, linv m sl used -> frames st sl -> nested st h -> never_reused used h ->
  let evs := kept mask (ring_spec st h) in
  In id (keys (table_after delta m evs)) <-> (In id (keys m) \/ entry_seen id evs) /\ ~ exit_seen id evs.
Proof.
  induction h as [|[t f sid ns pass txt|t f ns txt] h IH]; intros mask m st sl used Hl Hfr Hn Hu evs.
  - unfold evs. cbn [ring_spec]. rewrite kept_nil. cbn [table_after]. split; [intros H; split; [left; exact H|intros (e & [] & _)]|].
    intros [[H|(e & [] & _)] _]. exact H.
  - unfold evs. cbn [nested never_reused ring_spec] in *. destruct Hu as (Hs & Hne & Hu).
    set (fr := {| f_func := f; f_sid := sid; f_ns := ns; f_pass := pass; f_text := txt |}) in *. destruct pass.
    + cbn [app]. rewrite kept_cons. pose proof (linv_push m sl used t f sid ns txt (hd true mask) Hl Hs (Hne eq_refl)) as Hl'. fold fr in Hl'.
      pose proof (frames_push st sl t fr (hd true mask) Hfr) as Hfr'. destruct (hd true mask).
      * rewrite (table_cons _ _ _ _ _ _ _ (handle_entry delta m sid ns txt)). cbn zeta in IH. rewrite (IH (tl mask) _ _ _ _ Hl' Hfr' Hn Hu).
        destruct (seen_cons_entry id sid ns txt (kept (tl mask) (ring_spec (upds st t (fr :: st t)) h))) as [-> ->].
        unfold sess_add. rewrite !(keys_aput _ Zeqb_ok). intuition congruence.
      * exact (IH (tl mask) _ _ _ _ Hl' Hfr' Hn Hu).
    + cbn [app]. apply (IH mask m _ (push_seen sl t (fr, false)) used); [apply linv_push_rej; [exact Hl|reflexivity]|apply frames_push; exact Hfr|exact Hn|exact Hu].
  - unfold evs. cbn [nested never_reused ring_spec] in *. pose proof (Hfr t) as Ht. destruct (sl t) as [|[fr got] l] eqn:Hsl; cbn [map fst] in Ht; rewrite Ht in *.
    + apply (IH mask m st sl used); assumption.
    + destruct Hn as [Hfn Hn]. pose proof (frames_pop st sl t fr (map fst l) Hfr Ht) as Hfr'. destruct (f_pass fr) eqn:Hp.
      * pose proof (linv_del m sl used t fr got l Hl Hsl Hp) as Hl1. pose proof (linv_pop m sl used t Hl) as Hl2.
        pose proof Hl as (Hnd & _ & Hin & _). destruct (Hin t fr got) as (Hr & Husd & Ha); [rewrite Hsl; left; reflexivity|exact Hp|].
        cbn [app]. rewrite kept_cons. destruct (hd true mask); [|exact (IH _ _ _ _ _ Hl2 Hfr' Hn Hu)].
        destruct (seen_cons_exit id (f_sid fr) ns txt (kept (tl mask) (ring_spec (upds st t (map fst l)) h)) Hr) as [-> ->].
        assert (Hno : ~ entry_seen (f_sid fr) (kept (tl mask) (ring_spec (upds st t (map fst l)) h))).
        { intros Hc. apply entry_kept in Hc. exact (no_entry_used h used _ _ Husd Hu Hc). }
        cbn zeta in IH.
        assert (Htab : table_after delta m (exit_event (u64 (f_sid fr - 1)) ns txt :: kept (tl mask) (ring_spec (upds st t (map fst l)) h)) =
                       table_after delta (adel Z.eqb (f_sid fr) m) (kept (tl mask) (ring_spec (upds st t (map fst l)) h))).
        { destruct got.
          - pose proof (handle_exit_found delta m (f_sid fr) (f_ns fr) (f_text fr) ns txt Hr Ha) as Hh.
            destruct (dur32 (f_ns fr) ns <? delta); rewrite (table_cons _ _ _ _ _ _ _ Hh); reflexivity.
          - rewrite (table_cons _ _ _ _ _ _ _ (handle_exit_none delta m (f_sid fr) ns txt Hr Ha)), (adel_absent _ _ Ha). reflexivity. }
        rewrite Htab, (IH (tl mask) _ _ _ _ Hl1 Hfr' Hn Hu), (keys_adel _ _ _ Hnd).
        destruct (Z.eq_dec (f_sid fr) id) as [He|He]; [rewrite He in *|]; intuition congruence.
      * cbn [app]. exact (IH _ _ _ _ _ (linv_pop m sl used t Hl) Hfr' Hn Hu).
Qed.
Lemma table_map delta mask h id : nested no_calls h -> never_reused [] h -> within_limits no_calls h ->
  let evs := kept mask (ring_map [] h) in
  In id (keys (table_after delta [] evs)) <-> entry_seen id evs /\ ~ exit_seen id evs.
Proof.
  intros Hn Hu Hw evs. unfold evs. rewrite ring_map_is by assumption.
  pose proof (table_spec delta h id mask [] no_calls no_seen [] linv_init (fun _ => eq_refl) Hn Hu) as H. cbn zeta in H. rewrite H. cbn. tauto.
Qed.
