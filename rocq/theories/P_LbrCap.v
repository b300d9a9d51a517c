(** * Proofs about recording branches *)
From Coq Require Import List Bool String ZArith Lia.
From Verif Require Import M_Go P_Go M_Lbr M_LbrCap S_LbrCap.
Import ListNotations.
Open Scope Z_scope.

Definition nr_of (s : snap) : Z := match s with SNone => 0 | SErr e => e | SOk l => 24 * Z.of_nat (List.length l) end.
Definition holds (d : lbrdata) (s : snap) : Prop :=
  List.length (ld_ents d) = 32%nat /\ ld_nr d = nr_of s /\ match s with SOk l => firstn (List.length l) (ld_ents d) = l | _ => True end.
Lemma take_len d s : snap_ok s -> List.length (ld_ents d) = 32%nat -> List.length (ld_ents (take d s)) = 32%nat.
Proof. intros Hs Hd. destruct s as [|e|l]; cbn; [exact Hd|exact Hd|]. rewrite app_length, skipn_length, Hd. cbn in Hs. lia. Qed.
Lemma take_holds d s : snap_ok s -> List.length (ld_ents d) = 32%nat -> holds (take d s) s.
Proof.
  intros Hs Hd. split; [apply take_len; assumption|]. split; [destruct s; reflexivity|]. destruct s as [|e|l]; [exact I|exact I|]. cbn [take ld_ents].
  rewrite firstn_app, Nat.sub_diag, firstn_all, firstn_O, app_nil_r. reflexivity.
Qed.
Lemma show_prefix name w inf nr data (k : nat) : (k <= List.length data)%nat ->
  show name w inf nr data (24 * Z.of_nat k) = show name w inf nr (firstn k data) (24 * Z.of_nat k).
Proof.
  intros Hk. destruct data as [|b data]; [destruct k; reflexivity|]. destruct k as [|k]; [reflexivity|]. unfold show. cbn [firstn].
  destruct (_ || _); [reflexivity|]. cbv zeta. rewrite (Z.mul_comm 24), Z.div_mul by lia. rewrite Nat2Z.id.
  cbn [List.length] in *. rewrite firstn_length. destruct (Z.ltb_spec (Z.of_nat (S (List.length data))) (Z.of_nat (S k))); [lia|].
  destruct (Z.ltb_spec (Z.of_nat (S (Nat.min k (List.length data)))) (Z.of_nat (S k))); [lia|].
  rewrite !firstn_cons, firstn_firstn, Nat.min_id. reflexivity.
Qed.

Section P.
  Variable own : Z -> snap.
  Variable name : Z -> string.
  Variable target : Z -> what * (Z -> bool).
  Variable lbr_nr : Z.
  Hypothesis Hown : forall id, snap_ok (own id).

  Definition lv (v : lev) : bool := v_flag v && (0 <? v_ret v).
  Record Inv (last : Z -> option Z) (y : sys) : Prop := {
    i_len : forall c, List.length (ld_ents (y_buf y c)) = 32%nat;
    i_buf : forall c id, last c = Some id -> holds (y_buf y c) (own id);
    i_q : forall v, In v (y_queue y) -> v_flag v = records (own (v_id v)) /\ v_ret v = nr_of (own (v_id v));
    i_nd : NoDup (keys (y_map y));
    i_incl : forall k, In k (keys (y_map y)) -> In k (map v_sid (filter lv (y_queue y)));
    i_sids : NoDup (map v_sid (filter lv (y_queue y)));
    i_has : forall v, In v (y_queue y) -> lv v = true -> exists d, aget Z.eqb (v_sid v) (y_map y) = Some d /\ holds d (own (v_id v)) }.
  Definition ids (y : sys) : list (Z * Z) := map (fun v => (v_id v, v_sid v)) (y_queue y).
  Definition ips (y : sys) : list (Z * Z) := map (fun v => (v_id v, v_ip v)) (y_queue y).

  Lemma room y last : Inv last y -> Z.of_nat (List.length (ids y)) < 65536 -> Z.of_nat (List.length (y_map y)) < max_lbrs.
  Proof.
    intros I H. apply Z.le_lt_trans with (Z.of_nat (List.length (ids y))); [apply inj_le|exact H].
    replace (List.length (y_map y)) with (List.length (keys (y_map y))) by (unfold keys; apply map_length).
    apply Nat.le_trans with (List.length (map v_sid (filter lv (y_queue y)))).
    - apply NoDup_incl_length; [exact (i_nd _ _ I)|exact (i_incl _ _ I)].
    - unfold ids. rewrite !map_length. clear. induction (y_queue y) as [|v q IH]; cbn; [lia|]. destruct (lv v); cbn; lia.
  Qed.
  Lemma filter_lv_app q v : map v_sid (filter lv (q ++ [v])) = map v_sid (filter lv q) ++ (if lv v then [v_sid v] else []).
  Proof. rewrite filter_app, map_app. f_equal. cbn. destruct (lv v); reflexivity. Qed.
  Lemma NoDup_snoc {A} (l : list A) x : NoDup l -> ~ In x l -> NoDup (l ++ [x]).
  Proof. induction l as [|a l IH]; intros H Hx; cbn; [constructor; [exact Hx|constructor]|]. inversion H; subst. constructor.
    - intros F. apply in_app_or in F as [F|[->|[]]]; [contradiction|]. apply Hx. left. reflexivity.
    - apply IH; [assumption|]. intros F. apply Hx. right. exact F. Qed.

  Lemma run_ok os : forall last y, Inv last y -> no_overlap last os -> orderly own (ids y) os ->
    map (fun r => (v_id (fst r), v_ip (fst r))) (run own name target lbr_nr y os) = handled (ips y) os /\
    Forall (fun r => snd r = shown_for name target lbr_nr (v_ip (fst r)) (own (v_id (fst r)))) (run own name target lbr_nr y os).
  Proof.
    induction os as [|o os IH]; intros last y I HN HO; [split; [reflexivity|constructor]|].
    destruct o as [c id|c id sid ip| |]; cbn [run step handled no_overlap orderly] in *.
    - (* start *)
      refine (IH (fun x => if x =? c then Some id else last x) {| y_buf := _; y_map := y_map y; y_queue := y_queue y |} _ HN HO).
      constructor; cbn [y_buf y_map y_queue]; try apply I.
      + intros x. destruct (Z.eqb_spec x c); [apply take_len; [apply Hown|apply I]|apply I].
      + intros x id' H. destruct (Z.eqb_spec x c) as [->|]; [injection H as <-; apply take_holds; [apply Hown|apply I]|apply (i_buf _ _ I); exact H].
    - (* emit *)
      destruct HN as [HL HN]. destruct HO as (HS & HR & HO).
      set (v := {| v_id := id; v_sid := sid; v_ip := ip; v_ret := ld_nr (y_buf y c); v_flag := records (own id) |}).
      set (y' := {| y_buf := y_buf y; y_map := _; y_queue := y_queue y ++ [v] |}).
      pose proof (i_buf _ _ I c id HL) as HB.
      assert (Hids : ids y' = ids y ++ [(id, sid)]) by (unfold ids, y'; cbn [y_queue]; rewrite map_app; reflexivity).
      assert (Hips : ips y' = ips y ++ [(id, ip)]) by (unfold ips, y'; cbn [y_queue]; rewrite map_app; reflexivity).
      rewrite <- Hids in HO. rewrite <- Hips. apply (IH last y'); [|exact HN|exact HO].
      assert (Hsid : own id <> SNone -> ~ In sid (map v_sid (y_queue y))).
      { intros Hne F. apply (HS Hne). unfold ids. rewrite map_map. cbn. exact F. }
      assert (Hsidf : own id <> SNone -> ~ In sid (map v_sid (filter lv (y_queue y)))).
      { intros Hne F. apply (Hsid Hne). apply in_map_iff in F as (x & E & F). apply filter_In in F as [F _]. rewrite <- E. apply in_map. exact F. }
      assert (Elv : lv v = records (own id) && (0 <? ld_nr (y_buf y c))) by reflexivity.
      unfold y'.
      constructor; cbn [y_buf y_map y_queue]; try apply I.
      + intros x F. apply in_app_or in F as [F|[<-|[]]]; [exact (i_q _ _ I x F)|]. cbn. split; [reflexivity|]. apply HB.
      + rewrite <- Elv. destruct (lv v); [|apply I]. unfold map_update. destruct (aget _ _ _); [apply (NoDup_aput _ Zeqb_ok); apply I|].
        destruct (_ <? max_lbrs); [apply (NoDup_aput _ Zeqb_ok); apply I|apply I].
      + intros k Hk. rewrite filter_lv_app. rewrite <- Elv in Hk. apply in_or_app. destruct (lv v).
        * assert (Hk' : k = sid \/ In k (keys (y_map y))).
          { unfold map_update in Hk. destruct (aget _ _ _); [apply (keys_aput _ Zeqb_ok) in Hk; exact Hk|].
            destruct (_ <? max_lbrs); [apply (keys_aput _ Zeqb_ok) in Hk; exact Hk|right; exact Hk]. }
          destruct Hk' as [->|Hk']; [right; left; reflexivity|left; apply (i_incl _ _ I); exact Hk'].
        * left. apply (i_incl _ _ I). exact Hk.
      + rewrite filter_lv_app. destruct (lv v) eqn:E; [|rewrite app_nil_r; apply I]. apply NoDup_snoc; [apply I|]. cbn. apply Hsidf.
        intros F. unfold lv, v in E. cbn in E. rewrite F in E. discriminate.
      + intros x Hx Hlx. rewrite <- Elv. apply in_app_or in Hx as [Hx|[<-|[]]].
        * destruct (i_has _ _ I x Hx Hlx) as (d & Hd & Hh). exists d. split; [|exact Hh].
          destruct (lv v) eqn:E; [|exact Hd]. assert (Hne : v_sid x <> sid).
          { intros F. assert (own id <> SNone) by (intros G; unfold lv, v in E; cbn in E; rewrite G in E; discriminate).
            apply (Hsid H). rewrite <- F. apply in_map. exact Hx. }
          unfold map_update. destruct (aget Z.eqb sid _); [|destruct (_ <? max_lbrs); [|exact Hd]]; rewrite (aget_aput _ Zeqb_ok);
            (destruct (Z.eqb_spec (v_sid x) sid); [congruence|exact Hd]).
        * rewrite Hlx. cbn [v_sid v v_id]. exists (y_buf y c). split; [|exact HB]. unfold map_update.
          destruct (aget Z.eqb sid (y_map y)) eqn:Eg; [rewrite (aget_aput _ Zeqb_ok), Z.eqb_refl; reflexivity|].
          pose proof (room y last I HR) as Hr. apply Z.ltb_lt in Hr. rewrite Hr. rewrite (aget_aput _ Zeqb_ok), Z.eqb_refl. reflexivity.
    - (* handle *)
      destruct (y_queue y) as [|v q] eqn:Eq.
      { replace (ips y) with (@nil (Z * Z)) by (unfold ips; rewrite Eq; reflexivity). replace (ids y) with (@nil (Z * Z)) in HO by (unfold ids; rewrite Eq; reflexivity).
        destruct (IH last y I HN) as [A B].
        - unfold ids. rewrite Eq. exact HO.
        - replace (ips y) with (@nil (Z * Z)) in A by (unfold ips; rewrite Eq; reflexivity). split; assumption. }
      assert (Eips : ips y = (v_id v, v_ip v) :: map (fun v => (v_id v, v_ip v)) q) by (unfold ips; rewrite Eq; reflexivity). rewrite Eips.
      assert (Eids : ids y = (v_id v, v_sid v) :: map (fun v => (v_id v, v_sid v)) q) by (unfold ids; rewrite Eq; reflexivity). rewrite Eids in HO. cbn [tl] in HO.
      destruct (i_q _ _ I v ltac:(rewrite Eq; left; reflexivity)) as [Q1 Q2].
      change (v_flag v && (0 <? v_ret v)) with (lv v). destruct (lv v) eqn:E.
      + destruct (i_has _ _ I v ltac:(rewrite Eq; left; reflexivity) E) as (d & Hd & Hh). rewrite Hd.
        set (y' := {| y_buf := y_buf y; y_map := adel Z.eqb (v_sid v) (y_map y); y_queue := q |}).
        assert (I' : Inv last y').
        { assert (Hnd : ~ In (v_sid v) (map v_sid (filter lv q)) /\ NoDup (map v_sid (filter lv q))).
          { pose proof (i_sids _ _ I) as H. rewrite Eq in H. cbn [filter] in H. rewrite E in H. cbn [map] in H. inversion H; subst. split; assumption. }
          constructor; cbn [y' y_buf y_map y_queue]; try apply I.
          - intros x Hx. apply (i_q _ _ I). rewrite Eq. right. exact Hx.
          - apply NoDup_adel, I.
          - intros k Hk. pose proof (keys_adel_incl _ _ _ _ Hk) as Hk'. apply (i_incl _ _ I) in Hk'. rewrite Eq in Hk'. cbn [filter] in Hk'. rewrite E in Hk'. cbn [map] in Hk'.
            destruct Hk' as [<-|Hk']; [|exact Hk']. exfalso. pose proof (aget_adel Z.eqb Zeqb_ok (v_sid v) (v_sid v) (y_map y) (i_nd _ _ I)) as A.
            rewrite Z.eqb_refl in A. apply (aget_None _ Zeqb_ok) in A. exact (A Hk).
          - apply Hnd.
          - intros x Hx Hlx. destruct (i_has _ _ I x ltac:(rewrite Eq; right; exact Hx) Hlx) as (d' & Hd' & Hh'). exists d'. split; [|exact Hh'].
            rewrite (aget_adel Z.eqb Zeqb_ok) by apply I. destruct (Z.eqb_spec (v_sid x) (v_sid v)) as [F|F]; [|exact Hd'].
            exfalso. apply (proj1 Hnd). rewrite <- F. apply in_map. apply filter_In. split; assumption. }
        destruct (IH last y' I' HN HO) as [A B]. cbn [map fst]. split; [f_equal; exact A|]. constructor; [|exact B]. cbn [fst snd].
        unfold show_data. destruct Hh as (L1 & L2 & L3). rewrite L2. unfold lv in E. apply andb_true_iff in E as [_ E]. apply Z.ltb_lt in E. rewrite Q2 in E.
        pose proof (Hown (v_id v)) as Hok. destruct (own (v_id v)) as [|e|l]; cbn [nr_of] in E |- *; [lia|cbn in Hok; lia|]. cbn [shown_for]. cbn in Hok.
        rewrite show_prefix by lia. rewrite L3. reflexivity.
      + set (y' := {| y_buf := y_buf y; y_map := y_map y; y_queue := q |}).
        assert (I' : Inv last y').
        { constructor; cbn [y' y_buf y_map y_queue]; try apply I.
          - intros x Hx. apply (i_q _ _ I). rewrite Eq. right. exact Hx.
          - intros k Hk. apply (i_incl _ _ I) in Hk. rewrite Eq in Hk. cbn [filter] in Hk. rewrite E in Hk. exact Hk.
          - pose proof (i_sids _ _ I) as H. rewrite Eq in H. cbn [filter] in H. rewrite E in H. exact H.
          - intros x Hx. apply (i_has _ _ I). rewrite Eq. right. exact Hx. }
        destruct (IH last y' I' HN HO) as [A B]. cbn [map fst]. split; [f_equal; exact A|]. constructor; [|exact B]. cbn [fst snd].
        unfold lv in E. rewrite Q1, Q2 in E. destruct (own (v_id v)) as [|e|l]; cbn [records nr_of andb] in E; [reflexivity|reflexivity|].
        apply Z.ltb_ge in E. destruct l as [|x l]; [reflexivity|cbn [List.length] in E; lia].
    - (* skip *)
      destruct HO as [HS HO]. destruct (y_queue y) as [|v q] eqn:Eq.
      { replace (ips y) with (@nil (Z * Z)) by (unfold ips; rewrite Eq; reflexivity). cbn [tl].
        apply (IH last {| y_buf := y_buf y; y_map := y_map y; y_queue := [] |}); [|exact HN|].
        - destruct I as [I1 I2 I3 I4 I5 I6 I7]. rewrite Eq in *. constructor; assumption.
        - unfold ids in *. rewrite Eq in HO. exact HO. }
      assert (Eids : ids y = (v_id v, v_sid v) :: map (fun v => (v_id v, v_sid v)) q) by (unfold ids; rewrite Eq; reflexivity). rewrite Eids in HO, HS. cbn [tl] in *.
      assert (Eips : ips y = (v_id v, v_ip v) :: map (fun v => (v_id v, v_ip v)) q) by (unfold ips; rewrite Eq; reflexivity). rewrite Eips. cbn [tl].
      destruct (i_q _ _ I v ltac:(rewrite Eq; left; reflexivity)) as [Q1 Q2]. rewrite HS in Q1. assert (E : lv v = false) by (unfold lv; rewrite Q1; reflexivity).
      apply (IH last {| y_buf := y_buf y; y_map := y_map y; y_queue := q |}); [|exact HN|exact HO].
      constructor; cbn [y_buf y_map y_queue]; try apply I.
      + intros x Hx. apply (i_q _ _ I). rewrite Eq. right. exact Hx.
      + intros k Hk. apply (i_incl _ _ I) in Hk. rewrite Eq in Hk. cbn [filter] in Hk. rewrite E in Hk. exact Hk.
      + pose proof (i_sids _ _ I) as H. rewrite Eq in H. cbn [filter] in H. rewrite E in H. exact H.
      + intros x Hx. apply (i_has _ _ I). rewrite Eq. right. exact Hx.
  Qed.
  Lemma Inv0 : Inv (fun _ => None) sys0.
  Proof.
    constructor; cbn [sys0 y_buf y_map y_queue]; try (intros; contradiction).
    - reflexivity.
    - discriminate.
    - constructor.
    - constructor.
  Qed.
End P.
