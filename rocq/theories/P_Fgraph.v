From Coq Require Import ZArith List Bool Lia String.
From Verif Require Import M_Go P_Go M_Sess S_Sess P_Sess M_Fgraph S_Fgraph.
Import ListNotations.
Open Scope Z_scope.

Lemma tracee_ip_inj e f g : 0 <= f < 2 ^ 64 -> 0 <= g < 2 ^ 64 -> tracee_ip e f = tracee_ip e g -> f = g.
Proof.
  unfold tracee_ip, u64. change W64 with (2 ^ 64). set (k := if e then 4 else 0). intros Hf Hg H.
  assert (Hm : (f - g) mod 2 ^ 64 = 0).
  { replace (f - g) with ((f + 5 + k) - (g + 5 + k)) by ring. rewrite Zminus_mod, H, Z.sub_diag. reflexivity. }
  apply Z.mod_divide in Hm; [|lia]. destruct Hm as [q Hq]. nia.
Qed.
Lemma tracee_ips_in e funcs f : (forall g, In g funcs -> 0 < g < 2 ^ 64) -> In f funcs -> fgraph_func_ip (tracee_ips e funcs) (tracee_ip e f) = f.
Proof.
  intros Hr Hin. unfold fgraph_func_ip, tracee_ips.
  assert (H : forall l m, (forall g, In g l -> 0 < g < 2 ^ 64) -> (forall g, 0 < g < 2 ^ 64 -> forall v, aget Z.eqb (tracee_ip e g) m = Some v -> v = g) ->
     (In f l \/ aget Z.eqb (tracee_ip e f) m = Some f) -> aget Z.eqb (tracee_ip e f) (fold_left (fun m f => aput Z.eqb (tracee_ip e f) f m) l m) = Some f).
  { induction l as [|g l IH]; intros m Hl Hm Hor; cbn [fold_left]; [destruct Hor as [[]|Hor]; exact Hor|].
    apply IH; [intros x Hx; apply Hl; right; exact Hx| |].
    - intros x Hx v. rewrite (aget_aput _ Zeqb_ok). destruct (Z.eqb_spec (tracee_ip e x) (tracee_ip e g)) as [He|]; [|apply Hm; exact Hx].
      intros [= <-]. symmetry. apply (tracee_ip_inj e); [lia| |exact He]. specialize (Hl g (or_introl eq_refl)). lia.
    - rewrite (aget_aput _ Zeqb_ok). destruct Hor as [[->|Hi]|Ha]; [right; rewrite Z.eqb_refl; reflexivity|left; exact Hi|].
      right. destruct (Z.eqb_spec (tracee_ip e f) (tracee_ip e g)) as [He|]; [|exact Ha]. f_equal. symmetry.
      apply (tracee_ip_inj e); [|specialize (Hl g (or_introl eq_refl)); lia|exact He]. specialize (Hr f Hin). lia. }
  rewrite H; [reflexivity|exact Hr|intros g _ v Hv; discriminate|left; exact Hin].
Qed.
Lemma tracee_ips_out e funcs ip : (forall f, In f funcs -> ip <> tracee_ip e f) -> fgraph_func_ip (tracee_ips e funcs) ip = 0.
Proof.
  intros H. unfold fgraph_func_ip, tracee_ips.
  assert (Hl : forall l m, (forall f, In f l -> ip <> tracee_ip e f) -> aget Z.eqb ip m = None -> aget Z.eqb ip (fold_left (fun m f => aput Z.eqb (tracee_ip e f) f m) l m) = None).
  { induction l as [|g l IH]; intros m Hi Hm; [exact Hm|]. cbn [fold_left]. apply IH; [intros f Hf; apply Hi; right; exact Hf|].
    rewrite (aget_aput _ Zeqb_ok). destruct (Z.eqb_spec ip (tracee_ip e g)) as [He|]; [|exact Hm]. exfalso. exact (Hi g (or_introl eq_refl) He). }
  rewrite Hl; [reflexivity|exact H|reflexivity].
Qed.

(** Walk over the functions only. *)
Fixpoint fwalk (sess : Z -> Z) (maxd d : Z) (fs : list Z) : Z * Z :=
  match fs with
  | [] => (0, d)
  | f :: fs' => if negb (sess f =? 0) then (sess f, d) else if maxd <? d + 1 then (0, d + 1) else fwalk sess maxd (d + 1) fs'
  end.
Lemma walk_after e funcs sess cur maxd : (forall g, In g funcs -> 0 < g < 2 ^ 64) -> forall ips fs d, shows e funcs ips fs ->
  fgraph_walk (tracee_ips e funcs) sess cur maxd true d ips = fwalk sess maxd d fs.
Proof.
  intros Hr ips fs d H. revert d. induction H as [|f ip ips fs Hin -> H IH|ip ips fs Hno H IH]; intros d; [reflexivity|..]; cbn [fgraph_walk fwalk].
  - change ((f + 5 + (if e then 4 else 0)) mod 2 ^ 64) with (tracee_ip e f). rewrite (tracee_ips_in _ _ _ Hr Hin).
    destruct (Z.eqb_spec f 0); [specialize (Hr f Hin); lia|]. destruct (negb (sess f =? 0)); [reflexivity|]. destruct (maxd <? d + 1); [reflexivity|apply IH].
  - rewrite (tracee_ips_out _ _ _ Hno). cbn [Z.eqb]. apply IH.
Qed.
Lemma walk_before e funcs sess cur maxd : (forall g, In g funcs -> 0 < g < 2 ^ 64) -> forall ips fs d, shows e funcs ips (cur :: fs) ->
  fgraph_walk (tracee_ips e funcs) sess cur maxd false d ips = fwalk sess maxd d fs.
Proof.
  intros Hr ips fs d H. remember (cur :: fs) as l eqn:Hl. revert d.
  induction H as [|f ip ips fs' Hin -> H IH|ip ips fs' Hno H IH]; intros d; [discriminate|..]; cbn [fgraph_walk].
  - injection Hl as -> ->. change ((cur + 5 + (if e then 4 else 0)) mod 2 ^ 64) with (tracee_ip e cur). rewrite (tracee_ips_in _ _ _ Hr Hin).
    destruct (Z.eqb_spec cur 0); [specialize (Hr cur Hin); lia|]. rewrite Z.eqb_refl. apply walk_after; assumption.
  - rewrite (tracee_ips_out _ _ _ Hno). cbn [Z.eqb]. apply IH. exact Hl.
Qed.

(** Session map after a history. *)
Lemma minv_ext m st st' : (forall x, st x = st' x) -> minv m st -> minv m st'.
Proof. intros H [Hnd Hm]. split; [exact Hnd|]. intros t f. specialize (Hm t f). unfold open_calls in *. rewrite <- H. exact Hm. Qed.
Definition sids_ok (st : stacks) : Prop := forall t fr, In fr (st t) -> 0 < f_sid fr < 2 ^ 64.
Lemma after_ok h : forall m st, minv m st -> (forall t, clean (st t)) -> sids_ok st ->
  nested st h -> fresh_ids st h -> within_limits st h ->
  minv (smap_after m h) (stacks_after st h) /\ (forall t, clean (stacks_after st h t)) /\ sids_ok (stacks_after st h).
Proof.
  induction h as [|[t f sid ns pass txt|t f ns txt] h IH]; intros m st Hm Hc Hid Hn Hf Hw; [cbn; auto|..].
  - cbn [nested fresh_ids within_limits smap_after stacks_after] in *. destruct Hf as (Hs & _ & Hf). destruct Hw as (Hp & Hnp & Hw).
    destruct (enter_ok m st t f sid ns pass txt Hm Hp) as (m' & -> & Hm'). cbn [fst].
    apply IH; [exact Hm'| | |assumption|assumption|assumption].
    + intros t'. destruct (Z.eq_dec t' t) as [->|Hne]; [|rewrite upds_ne by assumption; apply Hc].
      rewrite upds_eq. split; [|apply Hc]. cbn [f_pass f_func]. intros ->. exact (Hnp eq_refl).
    + intros t' fr. destruct (Z.eq_dec t' t) as [->|Hne]; [|rewrite upds_ne by assumption; apply Hid].
      rewrite upds_eq. intros [<-|Hin]; [exact Hs|exact (Hid t fr Hin)].
  - cbn [nested fresh_ids within_limits smap_after stacks_after] in *. 
    assert (Hc' : forall t', clean (upds st t (tl (st t)) t')).
    { intros t'. destruct (Z.eq_dec t' t) as [->|Hne]; [rewrite upds_eq|rewrite upds_ne by assumption; apply Hc].
      specialize (Hc t). destruct (st t); [exact I|apply Hc]. }
    assert (Hid' : sids_ok (upds st t (tl (st t)))).
    { intros t' x. destruct (Z.eq_dec t' t) as [->|Hne]; [rewrite upds_eq|rewrite upds_ne by assumption; apply Hid].
      intros Hin. apply (Hid t). destruct (st t); [contradiction|right; exact Hin]. }
    apply IH; [|exact Hc'|exact Hid'| |exact Hf|exact Hw].
    + destruct (st t) as [|fr l] eqn:Hst.
      * assert (Ho : open_calls st t f = []) by (unfold open_calls; rewrite Hst; reflexivity).
        rewrite (exit_none _ _ _ _ Hm Ho). cbn [fst tl]. apply (minv_ext _ st); [|exact Hm]. intros x. unfold upds. destruct (Z.eqb_spec x t); [subst; exact Hst|reflexivity].
      * destruct Hn as [Hfn Hn]. cbn [tl]. destruct (f_pass fr) eqn:Hp.
        -- destruct (exit_pass m st t fr l Hm Hst Hp) as (m' & He & Hm'); [apply (Hid t); rewrite Hst; left; reflexivity|]. rewrite <- Hfn, He. exact Hm'.
        -- assert (Ho : open_calls st t f = []).
           { unfold open_calls. rewrite Hst. cbn [filter]. rewrite Hp, andb_false_r, <- Hfn. specialize (Hc t). rewrite Hst in Hc. apply Hc. exact Hp. }
           rewrite (exit_none _ _ _ _ Hm Ho). cbn [fst]. destruct Hm as [Hnd Hm]. split; [exact Hnd|]. intros t' f'. specialize (Hm t' f').
           rewrite (open_pop _ _ _ _ t' f' Hst), Hp, andb_false_r in Hm. exact Hm.
    + destruct (st t) as [|fr l] eqn:Hst; [|apply Hn]. cbn [tl].
      assert (Heq : forall h st1 st2, (forall x, st1 x = st2 x) -> nested st1 h -> nested st2 h).
      { clear. induction h as [|[t f sid ns pass txt|t f ns txt] h IH]; intros st1 st2 H; [auto|..]; cbn [nested].
        - rewrite <- (H t). apply IH. intros x. unfold upds. destruct (x =? t); auto.
        - rewrite <- (H t). destruct (st1 t); [apply IH; exact H|]. intros [Ha Hb]. split; [exact Ha|]. revert Hb. apply IH. intros x. unfold upds. destruct (x =? t); auto. }
      revert Hn. apply Heq. intros x. unfold upds. destruct (Z.eqb_spec x t); [subst; exact Hst|reflexivity].
Qed.

Lemma get_open m st t f : minv m st -> get_session m (t, f) = match open_calls st t f with [] => 0 | fr :: _ => f_sid fr end.
Proof.
  intros [_ Hm]. specialize (Hm t f). unfold get_session. destruct (aget skey_eqb (t, f) m) as [s|].
  - destruct (open_calls st t f) as [|fr l] eqn:Ho; [destruct Hm as [Hn _]; contradiction|]. exact (holds_top _ _ _ Hm).
  - rewrite Hm. reflexivity.
Qed.
(** [above]: the frames above, all rejected. *)
Lemma fwalk_frames sess maxd st t : (forall f, sess f = match open_calls st t f with [] => 0 | fr :: _ => f_sid fr end) -> sids_ok st ->
  forall rest above d, st t = above ++ rest -> (forall x, In x above -> f_pass x = false) -> clean (st t) ->
  d <= maxd ->
  fst (fwalk sess maxd d (map f_func rest)) = match root_below rest d with Some (fr, k) => if k <=? maxd then f_sid fr else 0 | None => 0 end /\
  (fst (fwalk sess maxd d (map f_func rest)) <> 0 -> match root_below rest d with Some (fr, k) => snd (fwalk sess maxd d (map f_func rest)) = k | None => False end).
Proof.
  intros Hs Hid. induction rest as [|fr rest IH]; intros above d Hst Hab Hc Hd; [cbn; split; [reflexivity|congruence]|].
  assert (Hsk : forall p, filter p above = filter p above) by reflexivity.
  assert (Habove : forall f, filter (fun x => (f_func x =? f) && f_pass x) above = []).
  { intros f. clear -Hab. induction above as [|x above IH]; [reflexivity|]. cbn [filter]. rewrite (Hab x (or_introl eq_refl)), andb_false_r.
    apply IH. intros y Hy. apply Hab. right. exact Hy. }
  assert (Hopen : open_calls st t (f_func fr) = filter (fun x => (f_func x =? f_func fr) && f_pass x) (fr :: rest)).
  { unfold open_calls. rewrite Hst, filter_app, Habove. reflexivity. }
  cbn [map fwalk root_below]. rewrite Hs, Hopen. cbn [filter]. rewrite Z.eqb_refl. cbn [andb].
  destruct (f_pass fr) eqn:Hp.
  - assert (Hsid : 0 < f_sid fr < 2 ^ 64) by (apply (Hid t); rewrite Hst; apply in_or_app; right; left; reflexivity).
    destruct (Z.eqb_spec (f_sid fr) 0); [lia|]. cbn [negb fst snd]. destruct (Z.leb_spec d maxd); [|lia]. auto.
  - assert (Hcl : clean (fr :: rest)).
    { rewrite Hst in Hc. clear -Hc. induction above as [|x above IH]; [exact Hc|]. apply IH. apply Hc. }
    destruct Hcl as [Hcl _]. rewrite (Hcl Hp). cbn [Z.eqb negb].
    destruct (Z.ltb_spec maxd (d + 1)) as [Hlt|Hge].
    + cbn [fst snd]. split; [|congruence].
      assert (Hdeep : forall l k, maxd < k -> match root_below l k with Some (_, k') => maxd < k' | None => True end).
      { induction l as [|x l IHl]; intros k Hk; [exact I|]. cbn [root_below]. destruct (f_pass x); [exact Hk|apply IHl; lia]. }
      specialize (Hdeep rest (d + 1) Hlt). destruct (root_below rest (d + 1)) as [[x k]|]; [|reflexivity].
      destruct (Z.leb_spec k maxd); [lia|reflexivity].
    + apply (IH (above ++ [fr])); [rewrite <- app_assoc; exact Hst| |exact Hc|lia].
      intros x Hx. apply in_app_or in Hx as [Hx|[<-|[]]]; [exact (Hab x Hx)|exact Hp].
Qed.

Lemma graph_depth endbr funcs h t cur callers stack maxd sdepth :
  nested no_calls h -> fresh_ids no_calls h -> within_limits no_calls h ->
  stacks_after no_calls h t = cur :: callers -> f_pass cur = false ->
  (forall f, In f funcs -> 0 < f < 2 ^ 64) -> shows endbr funcs stack (map f_func (cur :: callers)) ->
  Z.of_nat (List.length stack) <= sdepth -> 1 <= maxd ->
  let r := try_get_session (tracee_ips endbr funcs) (smap_after [] h) (f_func cur) maxd sdepth t stack in
  match root_below callers 1 with
  | Some (fr, d) => if d <=? maxd then r = (f_sid fr, d) else fst r = 0
  | None => fst r = 0
  end.
Proof.
  intros Hn Hf Hw Hst Hcur Hr Hsh Hlen Hmax r.
  destruct (after_ok h [] no_calls minv_init (fun _ => I)) as (Hm & Hc & Hid); [intros x y []|assumption..|].
  assert (Hrv : r = fwalk (fun f => get_session (smap_after [] h) (t, f)) maxd 1 (map f_func callers)).
  { unfold r, try_get_session. rewrite firstn_all2 by lia. apply walk_before; [exact Hr|exact Hsh]. }
  destruct (fwalk_frames (fun f => get_session (smap_after [] h) (t, f)) maxd (stacks_after no_calls h) t (fun f => get_open _ _ t f Hm) Hid
              callers [cur] 1 Hst) as [H1 H2].
  - intros x [<-|[]]. exact Hcur.
  - apply Hc.
  - exact Hmax.
  - rewrite <- Hrv in H1, H2. destruct (root_below callers 1) as [[fr d]|] eqn:Hrb; [|exact H1].
    destruct (d <=? maxd); [|exact H1]. rewrite (surjective_pairing r), H1. f_equal. apply H2. rewrite H1.
    assert (Hin : In fr callers). { clear -Hrb. revert Hrb. generalize 1. induction callers as [|x l IH]; intros k; cbn [root_below]; [discriminate|]. destruct (f_pass x); [intros [= <- _]; left; reflexivity|]. intros Hk. right. exact (IH _ Hk). }
    assert (0 < f_sid fr < 2 ^ 64) by (apply (Hid t); rewrite Hst; right; exact Hin). lia.
Qed.

(** With fsession roots nothing is ever put in the map. *)
Lemma empty_map_none ips cur maxd sdepth t stack : fst (try_get_session ips [] cur maxd sdepth t stack) = 0.
Proof.
  unfold try_get_session. generalize (firstn (Z.to_nat sdepth) stack) as l. generalize 1 as d. generalize false as b.
  intros b d l. revert b d. induction l as [|ip l IH]; intros b d; [reflexivity|]. cbn [fgraph_walk].
  destruct (fgraph_func_ip ips ip =? 0); [apply IH|]. destruct b; [|apply IH]. cbn. destruct (maxd <? d + 1); [reflexivity|apply IH].
Qed.
Lemma fsession_none ips h cur maxd sdepth t stack : fst (try_get_session ips (smap_after_fsession [] h) cur maxd sdepth t stack) = 0.
Proof. assert (H : forall h m, smap_after_fsession m h = m) by (clear; induction h; auto). rewrite H. apply empty_map_none. Qed.
