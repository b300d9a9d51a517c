(** * Argument capture: decoding, and the whole round trip. *)
From Coq Require Import ZArith List Bool Lia.
From Verif Require Import M_Go M_Ebpf M_Bytes M_FnArgs S_FnArgs P_Go P_Ebpf P_Bytes P_CcMach P_CcReg P_FnArgs.
Import ListNotations.
Open Scope Z_scope.

Definition tot (l : list prm) : Z := fold_right (fun p z => cap_size p + z) 0 l.
Lemma tot_app a b : tot (a ++ b) = tot a + tot b.
Proof. unfold tot. induction a as [|x a IH]; cbn [app fold_right]; lia. Qed.
Lemma tot_nonneg l : 0 <= tot l.
Proof. apply fold_sz_nonneg. Qed.
Lemma tot_ge8 p l : 8 <= tot (p :: l).
Proof. unfold tot. cbn [fold_right]. fold (tot l). pose proof (tot_nonneg l). pose proof (cap_size_pos p). lia. Qed.
Lemma tot_le l : tot l <= 64 * Z.of_nat (List.length l).
Proof. unfold tot. induction l as [|p l IH]; cbn [fold_right List.length]; [lia|]. assert (cap_size p <= 64) by (unfold cap_size, max_str; destruct (p_str p), (p_num p); lia). lia. Qed.

Lemma skipn_skipn {A} x : forall y (l : list A), skipn x (skipn y l) = skipn (y + x) l.
Proof. induction y as [|y IH]; intros l; [reflexivity|]. destruct l as [|a l]; [cbn [skipn Nat.add]; apply skipn_nil|]. cbn [skipn Nat.add]. apply IH. Qed.
Definition nonpart (l : list prm) : nat := List.length (filter (fun p => negb (p_part p)) l).

(** decoding one parameter never runs out of bytes *)
Lemma dec_param_total last i p d : cap_size p <= Z.of_nat (List.length d) -> (i < last -> cap_size p + 8 <= Z.of_nat (List.length d)) ->
  exists a, dec_param last i p d = Some (a, skipn (Z.to_nat (cap_size p)) d).
Proof.
  intros Hd Hn. unfold dec_param.
  assert (Hr : exists s v w, (if p_str p then match read_strn d 64 with Some (s, d') => Some (s, 0, 0, d') | None => None end
           else match read_u64 d with
                | None => None
                | Some (v, d') => if p_num p then match read_u64 d' with Some (w, d'') => Some ([], v, w, d'') | None => None end
                                  else Some ([], v, 0, d')
                end) = Some (s, v, w, skipn (Z.to_nat (cap_size p)) d)).
  { unfold cap_size, max_str in *. destruct (p_str p).
    - unfold read_strn. destruct (Nat.ltb_spec (List.length d) 64); [lia|]. do 3 eexists. reflexivity.
    - unfold read_u64, get_u64. destruct (Nat.ltb_spec (List.length d) 8); [destruct (p_num p); lia|]. destruct (p_num p).
      + rewrite skipn_length. destruct (Nat.ltb_spec (List.length d - 8) 8); [lia|]. do 3 eexists. rewrite skipn_skipn. reflexivity.
      + do 3 eexists. reflexivity. }
  destruct Hr as (s & v & w & ->). destruct (Z.ltb_spec i last); [|eexists; reflexivity].
  unfold get_u64. rewrite skipn_length. specialize (Hn H). pose proof (cap_size_pos p).
  destruct (Nat.ltb_spec (List.length d - Z.to_nat (cap_size p)) 8); [lia|]. eexists. reflexivity.
Qed.
Lemma dec_params_total l : forall last i d, last < i + Z.of_nat (List.length l) -> tot l <= Z.of_nat (List.length d) ->
  exists r d', dec_params last i l d = Some (r, d') /\ List.length r = nonpart l.
Proof.
  induction l as [|p l IH]; intros last i d Hl Hd; [exists [], d; split; reflexivity|].
  unfold tot in Hd. cbn [dec_params List.length fold_right] in *. fold (tot l) in Hd. pose proof (cap_size_pos p) as Hp. pose proof (tot_nonneg l).
  unfold nonpart. cbn [filter]. destruct (p_part p); cbn [negb].
  - apply IH; lia.
  - destruct (dec_param_total last i p d) as [a Ea]; [lia| |].
    { intros Hi. destruct l as [|q l]; [cbn [List.length] in Hl; lia|]. pose proof (tot_ge8 q l). lia. }
    rewrite Ea. destruct (IH last (i + 1) (skipn (Z.to_nat (cap_size p)) d)) as (r & d' & E & Hr); [lia|rewrite skipn_length; lia|].
    rewrite E. exists (a :: r), d'. split; [reflexivity|]. cbn [List.length]. rewrite Hr. reflexivity.
Qed.
Lemma dec_params_app l1 : forall l2 last i d r d', dec_params last i (l1 ++ l2) d = Some (r, d') ->
  exists r1 r2 d1, dec_params last i l1 d = Some (r1, d1) /\ dec_params last (i + Z.of_nat (List.length l1)) l2 d1 = Some (r2, d') /\ r = r1 ++ r2.
Proof.
  induction l1 as [|p l1 IH]; intros l2 last i d r d' H; cbn [app dec_params] in *.
  - exists [], r, d. rewrite Z.add_0_r. auto.
  - replace (i + Z.of_nat (List.length (p :: l1))) with (i + 1 + Z.of_nat (List.length l1)) by (cbn [List.length]; lia).
    destruct (p_part p); [apply IH; exact H|].
    destruct (dec_param last i p d) as [[a d0]|]; [|discriminate].
    destruct (dec_params last (i + 1) (l1 ++ l2) d0) as [[r0 d1]|] eqn:E; [|discriminate]. injection H as <- <-.
    destruct (IH _ _ _ _ _ _ E) as (r1 & r2 & d2 & E1 & E2 & ->). rewrite E1. exists (a :: r1), r2, d2. auto.
Qed.

Lemma firstn_bl f a n N : (n <= N)%nat -> firstn n (bl f a N) = bl f a n.
Proof.
  intros H. replace N with (n + (N - n))%nat by lia. rewrite bl_app. rewrite firstn_app, bl_length, Nat.sub_diag. cbn [firstn].
  rewrite app_nil_r. rewrite <- (bl_length f a n) at 1. apply firstn_all.
Qed.
Lemma skipn_bl f a n N : (n <= N)%nat -> skipn n (bl f a N) = bl f (a + Z.of_nat n) (N - n).
Proof.
  intros H. replace N with (n + (N - n))%nat at 1 by lia. rewrite bl_app. rewrite skipn_app, bl_length, Nat.sub_diag. cbn [skipn].
  rewrite <- (bl_length f a n) at 1. rewrite skipn_all. reflexivity.
Qed.

Section Dec.
  Variables (m : mach) (s0 : mst).
  Notation enc := (enc m s0). Notation encs := (encs m s0).
  Lemma dec_param_enc last i p v s a N r d' : enc p v s a -> dec_param last i p (bl (ker s) a N) = Some (r, d') -> cap_size p <= Z.of_nat N ->
    seen p r = view_of (S_FnArgs.mem_of m s0) (p_str p) (p_num p) v /\ d' = bl (ker s) (a + cap_size p) (N - Z.to_nat (cap_size p)) /\
    (i < last -> sa_next r = M_Go.le_bytes (bl (ker s) (a + cap_size p) 8) \/ Z.of_nat N < cap_size p + 8) /\ (p_str p = false -> sa_val r = v).
  Proof.
    unfold P_FnArgs.enc, dec_param, seen, view_of. intros He H Hs. unfold cap_size, max_str in *.
    assert (Hnext : forall (s : mst) b M k, get_u64 (bl (ker s) b M) = Some k -> k = M_Go.le_bytes (bl (ker s) b 8)).
    { intros st b M k Hk. unfold get_u64 in Hk. rewrite bl_length in Hk. destruct (Nat.ltb_spec M 8); [discriminate|]. assert (Hk' : k = M_Go.le_bytes (firstn 8 (bl (ker st) b M))) by congruence. rewrite Hk', firstn_bl by lia. reflexivity. }
    destruct (p_str p).
    - unfold read_strn in H. rewrite bl_length in H. destruct (Nat.ltb_spec N 64); [discriminate|].
      rewrite firstn_bl, skipn_bl, He in H by lia. change (Z.of_nat 64) with 64 in H. change (Z.to_nat 64) with 64%nat.
      destruct (i <? last) eqn:Hi; [destruct (get_u64 _) as [k|] eqn:Hk; [|discriminate]; apply Hnext in Hk|apply Z.ltb_ge in Hi]; injection H as <- <-; cbn [sa_str sa_next sa_val];
        (split; [reflexivity|]; split; [reflexivity|]; split; [|discriminate]); [intros _; left; exact Hk|lia].
    - destruct He as [E1 E2]. unfold read_u64 in H. unfold get_u64 in H at 1. rewrite bl_length in H. destruct (Nat.ltb_spec N 8); [discriminate|].
      rewrite firstn_bl, skipn_bl, E1 in H by lia. change (Z.of_nat 8) with 8 in H. destruct (p_num p).
      + unfold get_u64 in H at 1. rewrite bl_length in H. destruct (Nat.ltb_spec (N - 8) 8); [discriminate|].
        rewrite firstn_bl, skipn_bl, E2 in H by (reflexivity || lia). change (Z.of_nat 8) with 8 in H. change (Z.to_nat 16) with 16%nat.
        replace (N - 8 - 8)%nat with (N - 16)%nat in H by lia. replace (a + 8 + 8) with (a + 16) in H by ring.
        destruct (i <? last) eqn:Hi; [destruct (get_u64 _) as [k|] eqn:Hk; [|discriminate]; apply Hnext in Hk|apply Z.ltb_ge in Hi]; injection H as <- <-; cbn [sa_val sa_ptr sa_next];
          (split; [reflexivity|]; split; [reflexivity|]; split; [|reflexivity]); [intros _; left; exact Hk|lia].
      + change (Z.to_nat 8) with 8%nat.
        destruct (i <? last) eqn:Hi; [destruct (get_u64 _) as [k|] eqn:Hk; [|discriminate]; apply Hnext in Hk|apply Z.ltb_ge in Hi]; injection H as <- <-; cbn [sa_val sa_ptr sa_next];
          (split; [reflexivity|]; split; [reflexivity|]; split; [|reflexivity]); [intros _; left; exact Hk|lia].
  Qed.
  Fixpoint views (ps : list prm) (vs : list Z) : list view :=
    match ps, vs with p :: ps', v :: vs' => view_of (S_FnArgs.mem_of m s0) (p_str p) (p_num p) v :: views ps' vs' | _, _ => [] end.
  Lemma dec_params_enc l : forall last i vs s a N r d', (forall p, In p l -> p_part p = false) -> List.length vs = List.length l -> encs l vs s a ->
    dec_params last i l (bl (ker s) a N) = Some (r, d') -> tot l <= Z.of_nat N ->
    map (fun pr => seen (fst pr) (snd pr)) (combine l r) = views l vs /\ d' = bl (ker s) (a + tot l) (N - Z.to_nat (tot l)) /\ List.length r = List.length l.
  Proof.
    induction l as [|p l IH]; intros last i vs s a N r d' Hp Hl He H Hs.
    - cbn [dec_params] in H. injection H as <- <-. cbn. split; [reflexivity|]. rewrite Z.add_0_r, Nat.sub_0_r. split; reflexivity.
    - destruct vs as [|v vs]; [discriminate|]. cbn [dec_params P_FnArgs.encs] in *. destruct He as [He1 He2]. rewrite (Hp p) in H by (left; reflexivity).
      pose proof (tot_nonneg l) as Hnn. pose proof (cap_size_pos p). unfold tot in Hs. cbn [fold_right] in Hs. fold (tot l) in Hs.
      destruct (dec_param last i p _) as [[x d0]|] eqn:Ex; [|discriminate].
      destruct (dec_param_enc _ _ _ _ _ _ _ _ _ He1 Ex) as (Hv & -> & _); [lia|].
      destruct (dec_params last (i + 1) l _) as [[r0 d1]|] eqn:Er; [|discriminate]. injection H as <- <-.
      destruct (IH _ _ _ _ _ _ _ _ (fun q Hq => Hp q (or_intror Hq)) (eq_add_S _ _ Hl) He2 Er) as (Hr & -> & Hlen); [lia|].
      cbn [combine map views fst snd List.length]. rewrite Hv, Hr, Hlen. split; [reflexivity|]. split; [|reflexivity]. unfold tot. cbn [fold_right]. fold (tot l). f_equal; lia.
  Qed.
  Lemma dec_ret_enc r v s a N : enc r v s a -> cap_size r <= Z.of_nat N -> seen r (dec_ret r (bl (ker s) a N)) = view_of (S_FnArgs.mem_of m s0) (p_str r) (p_num r) v.
  Proof.
    unfold P_FnArgs.enc, seen, view_of, dec_ret, cap_size, max_str. intros He Hs.
    assert (Hpad : forall b M, (8 <= M)%nat -> pad_u64 (bl (ker s) b M) = M_Go.le_bytes (bl (ker s) b 8)).
    { intros b M HM. unfold pad_u64. rewrite firstn_app, bl_length. replace (8 - M)%nat with 0%nat by lia. rewrite firstn_O, app_nil_r. rewrite firstn_bl by lia. reflexivity. }
    destruct (p_str r); cbn [sa_str sa_val sa_ptr andb].
    - rewrite bl_length. destruct (Nat.leb_spec 64 N); [|lia]. rewrite firstn_bl by lia. rewrite He. reflexivity.
    - destruct He as [E1 E2]. destruct (p_num r).
      + rewrite Hpad by lia. rewrite skipn_bl by lia. rewrite Hpad by lia. change (Z.of_nat 8) with 8. rewrite E1, E2 by reflexivity. reflexivity.
      + rewrite Hpad by lia. rewrite E1. reflexivity.
  Qed.
End Dec.

(** ** getFuncParams *)
Definition small (t : ptype) : Prop := pt_size t <= 8.
Lemma func_params_app pre : forall post used ps, func_params used (pre ++ post) = Some ps -> Forall small pre ->
  exists p1 p2, ps = p1 ++ p2 /\ List.length p1 = List.length pre /\ (forall p, In p p1 -> p_part p = false) /\
    func_params (used || existsb pt_charptr pre) post = Some p2 /\
    forall m s0 vs, List.length vs = List.length p1 -> views m s0 p1 vs = expected_args (S_FnArgs.mem_of m s0) used pre vs.
Proof.
  induction pre as [|t pre IH]; intros post used ps H Hs.
  - exists [], ps. cbn [app existsb] in *. rewrite orb_false_r. split; [reflexivity|]. split; [reflexivity|]. split; [intros p []|]. split; [exact H|]. intros m s0 [|v vs] Hl; [reflexivity|discriminate].
  - cbn [app func_params] in H. inversion Hs as [|t' pre' Ht Hs']; subst. unfold small in Ht. destruct (Z.ltb_spec 16 (pt_size t)); [lia|].
    destruct (func_params (used || pt_charptr t) (pre ++ post)) as [r|] eqn:Er; [|discriminate].
    destruct (Z.ltb_spec 8 (pt_size t)); [lia|]. injection H as <-.
    destruct (IH _ _ _ Er Hs') as (p1 & p2 & -> & Hl & Hp & Hf & Hv).
    eexists (_ :: p1), p2. split; [reflexivity|]. split; [cbn [List.length]; lia|].
    split; [intros p [<-|Hi]; [reflexivity|apply Hp; exact Hi]|].
    split; [cbn [existsb]; rewrite orb_assoc; exact Hf|].
    intros m s0 [|v vs] Hlv; [discriminate|]. cbn [views expected_args p_str p_num]. rewrite Hv by (cbn [List.length] in Hlv; lia). reflexivity.
Qed.
Lemma func_params_nonpart l : forall used ps, func_params used l = Some ps -> nonpart ps = List.length l /\ (List.length l <= List.length ps <= 2 * List.length l)%nat.
Proof.
  induction l as [|t l IH]; intros used ps H; cbn [func_params] in H; [injection H as <-; cbn; lia|].
  destruct (16 <? pt_size t); [discriminate|]. destruct (func_params (used || pt_charptr t) l) as [r|] eqn:Er; [|discriminate].
  destruct (IH _ _ Er) as [H1 H2]. unfold nonpart in *. destruct (8 <? pt_size t); injection H as <-; cbn [filter p_part negb List.length]; lia.
Qed.

(** ** The round trip *)
Lemma inv_save m s vals retval buf size : call_state m s vals retval buf size ->
  exists s1, exec m [IMovR R6 R1; IMovR R7 R2; IMovR R8 R3] 0 s = FFall 0 s1 /\ inv buf size s (rg s R1) retval (rg s RFP) s1.
Proof.
  intros [_ [H2 _] _ _ [H3 _]]. eexists. split; [reflexivity|].
  split; try (repeat (rewrite rg_setr_eq || rewrite rg_setr_neq by (unfold R1, R2, R3, R6, R7, R8, RFP; lia)); auto; fail).
Qed.

Lemma exec_run m l s s' : exec m (l ++ [IExit]) 0 s = FExit s' -> forall p fuel, code p = l ++ [IExit] -> (List.length (code p) <= fuel)%nat ->
  run fuel m p 0 s = Done (rg s' R0) s'.
Proof.
  intros E p fuel Hc Hf. destruct (run_exec m p [] (l ++ [IExit]) 0 s Hc) as (j & Hj & Hrun); [rewrite E; discriminate|].
  specialize (Hrun (fuel - j)%nat). rewrite E in Hrun. rewrite Hc in Hf. replace (j + (fuel - j))%nat with fuel in Hrun by lia. exact Hrun.
Qed.

Lemma capture_ok m s pts prms rt withret vals retval buf c size :
  func_params false pts = Some prms -> (List.length pts <= 200)%nat -> List.length vals = List.length prms ->
  gen_output_fn_args prms (ret_flags rt) withret = (c, size) -> call_state m s vals retval buf size ->
  exists s', (forall p fuel, code p = c -> (List.length c <= fuel)%nat -> run fuel m p 0 s = Done (rg s' R0) s') /\
    (forall x, ~ (buf <= x < buf + size) -> ker s' x = ker s x) /\
    encs m s prms vals s' buf /\ (withret = true -> enc m s (ret_flags rt) retval s' (buf + tot prms)) /\
    size = tot prms + (if withret then cap_size (ret_flags rt) else 0).
Proof.
  intros Hp Hn Hv Hg Hc. destruct (func_params_nonpart _ _ _ Hp) as [_ Hlen].
  unfold gen_output_fn_args in Hg. pose proof (cap_params_off prms 0 0) as Hoff. fold (tot prms) in Hoff.
  destruct (cap_params 0 0 prms) as [cc off] eqn:Ecc. cbn [snd] in Hoff. rewrite Z.add_0_l in Hoff. subst off.
  assert (Hsz : size = tot prms + (if withret then cap_size (ret_flags rt) else 0)) by (destruct withret; cbn [negb] in Hg; injection Hg as _ <-; lia).
  pose proof (tot_le prms) as Htl. pose proof (tot_nonneg prms) as Htn.
  assert (Hcr : 8 <= cap_size (ret_flags rt) <= 64) by (split; [apply cap_size_pos|unfold cap_size, max_str; destruct (p_str (ret_flags rt)), (p_num (ret_flags rt)); lia]).
  destruct (inv_save _ _ _ _ _ _ Hc) as (s1 & E1 & I1). destruct Hc as [Ha [Hb2 Hb] Hfr Hap [H3 Hr]].
  assert (Hbuf : 0 <= buf /\ buf + size <= M64) by exact Hb.
  assert (Hsize : size < 2 ^ 15) by (destruct withret; lia).
  assert (Hframe : inframe buf size (rg s RFP)) by exact Hfr.
  assert (Harg : forall k v, nth_error vals k = Some v -> arg_at m buf size s (rg s R1) (0 + Z.of_nat k) v).
  { intros k v Hk. destruct (Ha k v Hk) as (_ & A & B). rewrite Z.add_0_l. split; [exact A|]. split; [exact B|]. apply Hap. right. eapply nth_error_In. exact Hk. }
  assert (Htot : tot prms <= size) by (destruct withret; lia).
  destruct (cap_params_ok m buf size Hbuf s (rg s R1) retval (rg s RFP) Hsize Hframe prms vals 0 0 s1 I1 Hv Harg) as (s2 & E2 & I2 & K2 & N2);
    try lia; try exact Htot.
  rewrite Ecc in E2. cbn [fst] in E2. rewrite !Z.add_0_r in *. fold (tot prms) in K2.
  assert (K20 : forall x, ~ (buf <= x < buf + size) -> ker s2 x = ker s x) by (apply (ik _ _ _ _ _ _ _ I2)).
  destruct withret; cbn [negb] in Hg.
  - destruct (cap_ret_ok m buf size Hbuf s (rg s R1) retval (rg s RFP) Hsize Hframe s2 (tot prms) (ret_flags rt) I2) as (s3 & E3 & K3 & N3);
      [exact Hr|apply Hap; left; reflexivity|lia|lia|].
    injection Hg as <- <-. exists s3. split.
    { intros p fuel Hcode Hf. refine (exec_run m ([IMovR R6 R1; IMovR R7 R2; IMovR R8 R3] ++ cc ++ cap_ret (tot prms) (ret_flags rt)) s s3 _ p fuel _ _).
      - rewrite <- !app_assoc. rewrite exec_app, E1. cbv iota beta. rewrite exec_app, E2. cbv iota beta. rewrite exec_app, E3. reflexivity.
      - rewrite Hcode. rewrite <- !app_assoc. reflexivity.
      - rewrite Hcode. exact Hf. }
    split. { intros x Hx. rewrite K3 by lia. apply K20. lia. }
    split. { apply (encs_ext m s prms vals s2); [|exact N2]. intros x Hx. fold (tot prms) in Hx. apply K3. lia. }
    split; [intros _; exact N3|lia].
  - injection Hg as <- <-. exists s2. split.
    { intros p fuel Hcode Hf. refine (exec_run m ([IMovR R6 R1; IMovR R7 R2; IMovR R8 R3] ++ cc) s s2 _ p fuel _ _).
      - rewrite <- !app_assoc. rewrite exec_app, E1. cbv iota beta. rewrite exec_app, E2. reflexivity.
      - rewrite Hcode. rewrite <- !app_assoc. reflexivity.
      - rewrite Hcode. exact Hf. }
    split; [exact K20|]. split; [exact N2|]. split; [discriminate|lia].
Qed.

Lemma encs_app m s0 p1 : forall p2 vs s a, encs m s0 (p1 ++ p2) vs s a -> (List.length p1 <= List.length vs)%nat ->
  encs m s0 p1 (firstn (List.length p1) vs) s a /\ encs m s0 p2 (skipn (List.length p1) vs) s (a + tot p1).
Proof.
  induction p1 as [|p p1 IH]; intros p2 vs s a H Hl.
  - cbn [app List.length firstn skipn encs] in *. unfold tot. cbn [fold_right]. rewrite Z.add_0_r. auto.
  - destruct vs as [|v vs]; [cbn in Hl; lia|]. cbn [app encs List.length firstn skipn] in *. destruct H as [H1 H2].
    destruct (IH _ _ _ _ H2 ltac:(lia)) as [A B]. split; [split; assumption|]. unfold tot. cbn [fold_right]. fold (tot p1). rewrite Z.add_assoc. exact B.
Qed.

Lemma firstn_combine_app {A B} (l1 l2 : list A) (r1 r2 : list B) : List.length r1 = List.length l1 ->
  firstn (List.length l1) (combine (l1 ++ l2) (r1 ++ r2)) = combine l1 r1.
Proof.
  revert r1; induction l1 as [|x l1 IH]; intros [|y r1] H; try discriminate; [destruct (combine ([] ++ l2) ([] ++ r2)); reflexivity|].
  cbn [app combine List.length firstn]. f_equal. apply IH. cbn in H. lia.
Qed.

Theorem round_trip m s pts prms rt withret vals retval buf c size :
  func_params false pts = Some prms -> (List.length pts <= 200)%nat -> List.length vals = List.length prms ->
  gen_output_fn_args prms (ret_flags rt) withret = (c, size) -> call_state m s vals retval buf size ->
  exists s' shown ret, (forall p fuel, code p = c -> (List.length c <= fuel)%nat -> run fuel m p 0 s = Done (rg s' R0) s') /\
    (forall x, ~ (buf <= x < buf + size) -> ker s' x = ker s x) /\
    output_fn_args (Z.of_nat (List.length pts)) prms (ret_flags rt) withret (record s' buf size) = Some (shown, ret) /\
    List.length shown = List.length pts /\
    (forall pre post, pts = pre ++ post -> Forall small pre ->
       map (fun pr => seen (fst pr) (snd pr)) (firstn (List.length pre) (combine prms shown)) = expected_args (S_FnArgs.mem_of m s) false pre (firstn (List.length pre) vals)) /\
    (forall pre t post v w rest, pts = pre ++ t :: post -> Forall small pre -> 8 < pt_size t -> post <> [] -> skipn (List.length pre) vals = v :: w :: rest ->
       exists a, nth_error shown (List.length pre) = Some a /\ sa_val a = v /\ sa_next a = w) /\
    (Forall small pts -> if withret then exists a, ret = Some a /\ seen (ret_flags rt) a = view_of (S_FnArgs.mem_of m s) (pt_charptr rt) (pt_numptr rt) retval else ret = None).
Proof.
  intros Hp Hn Hv Hg Hc. destruct (capture_ok _ _ _ _ _ _ _ _ _ _ _ Hp Hn Hv Hg Hc) as (s' & Hrun & Hker & Henc & Hret & Hsz).
  destruct (func_params_nonpart _ _ _ Hp) as [Hnp Hlen]. pose proof (tot_nonneg prms) as Htn. pose proof (cap_size_pos (ret_flags rt)) as Hcr.
  assert (Htot : tot prms <= Z.of_nat (Z.to_nat size)) by (destruct withret; lia).
  assert (Hrec : record s' buf size = bl (ker s') buf (Z.to_nat size)) by apply record_bl.
  destruct (dec_params_total prms (Z.of_nat (List.length pts) - 1) 0 (bl (ker s') buf (Z.to_nat size))) as (r & d' & Ed & Hr); [lia|rewrite bl_length; exact Htot|].
  exists s', r, (if withret then Some (dec_ret (ret_flags rt) d') else None). split; [exact Hrun|]. split; [exact Hker|].
  split. { unfold output_fn_args. rewrite Hrec, Ed. reflexivity. }
  split; [lia|]. split; [|split].
  - intros pre post -> Hs. destruct (func_params_app _ _ _ _ Hp Hs) as (p1 & p2 & -> & Hl1 & Hpp & _ & Hview).
    destruct (dec_params_app _ _ _ _ _ _ _ Ed) as (r1 & r2 & d1 & Ed1 & Ed2 & ->).
    rewrite app_length in Hv. destruct (encs_app _ _ _ _ _ _ _ Henc ltac:(lia)) as [He1 _].
    assert (Hl1' : List.length (firstn (List.length p1) vals) = List.length p1) by (rewrite firstn_length; lia).
    rewrite tot_app in Htot. pose proof (tot_nonneg p2).
    destruct (dec_params_enc _ _ _ _ _ _ _ _ _ _ _ Hpp Hl1' He1 Ed1) as (Hm & _ & Hlr); [lia|].
    rewrite <- Hl1. rewrite (firstn_combine_app p1 p2 r1 r2 Hlr). rewrite Hm. apply Hview. exact Hl1'.
  - intros pre t post v w rest -> Hs Ht Hpost Hvals. destruct (func_params_app _ _ _ _ Hp Hs) as (p1 & p2 & -> & Hl1 & Hpp & Hf2 & Hview).
    cbn [func_params] in Hf2. destruct (16 <? pt_size t); [discriminate|].
    destruct (func_params _ post) as [r3|] eqn:Er3; [|discriminate]. destruct (Z.ltb_spec 8 (pt_size t)); [|lia]. injection Hf2 as <-.
    destruct (dec_params_app _ _ _ _ _ _ _ Ed) as (r1 & r2 & d1 & Ed1 & Ed2 & ->).
    rewrite app_length in Hv. destruct (encs_app _ _ _ _ _ _ _ Henc ltac:(lia)) as [He1 He2].
    assert (Hl1' : List.length (firstn (List.length p1) vals) = List.length p1) by (rewrite firstn_length; lia).
    rewrite tot_app in Htot. match type of Htot with tot p1 + tot (?p :: ?q :: r3) <= _ => set (pa := p) in *; set (pb := q) in * end.
    assert (Htab : tot (pa :: pb :: r3) = 16 + tot r3) by (unfold tot; cbn [fold_right]; change (cap_size pa) with 8; change (cap_size pb) with 8; lia).
    pose proof (tot_nonneg r3). pose proof (tot_nonneg p1).
    destruct (dec_params_enc _ _ _ _ _ _ _ _ _ _ _ Hpp Hl1' He1 Ed1) as (Hm & Hd1 & Hlr); [lia|]. subst d1.
    rewrite Hl1 in He2. rewrite Hvals in He2. cbn [encs] in He2. change (cap_size pa) with 8 in He2. destruct He2 as (Hea & Heb & _).
    cbn [dec_params] in Ed2. change (p_part pa) with false in Ed2. change (p_part pb) with true in Ed2. cbv iota in Ed2.
    destruct (dec_param _ _ pa _) as [[x d2]|] eqn:Ex; [|discriminate].
    destruct (dec_param_enc _ _ _ _ _ _ _ _ _ _ _ Hea Ex) as (_ & _ & Hnx & Hval); [change (cap_size pa) with 8; lia|].
    destruct (dec_params _ _ r3 d2) as [[r4 d3]|]; [|discriminate]. injection Ed2 as <- <-.
    exists x. split. { rewrite <- Hl1, <- Hlr. rewrite nth_error_app2 by lia. rewrite Nat.sub_diag. reflexivity. }
    split; [apply Hval; reflexivity|]. change (cap_size pa) with 8 in Hnx. destruct Hnx as [Hnx|Hnx].
    + rewrite app_length. destruct post; [congruence|]. cbn [List.length]. lia.
    + rewrite Hnx. apply Heb.
    + lia.
  - intros Hs. destruct withret; [|reflexivity]. eexists. split; [reflexivity|].
    assert (Hpre : pts = pts ++ []) by (symmetry; apply app_nil_r). pose proof Hp as Hp'. rewrite Hpre in Hp'.
    destruct (func_params_app _ _ _ _ Hp' Hs) as (p1 & p2 & -> & Hl1 & Hpp & Hf2 & _). cbn [func_params] in Hf2. injection Hf2 as <-. rewrite app_nil_r in *.
    destruct (dec_params_enc _ _ _ _ _ _ _ _ _ _ _ Hpp Hv Henc Ed) as (_ & -> & _); [lia|].
    apply dec_ret_enc; [apply Hret; reflexivity|lia].
Qed.

(** ** kprobe.multi *)
Section Km.
  Variables (m : mach) (s0 : mst) (vals : list Z) (retval buf size : Z).
  Hypothesis Hc : call_state m s0 vals retval buf size.
  Hypothesis Hsize : size < 2 ^ 15.
  Record kinv (s : mst) : Prop := {
    k1 : rg s R1 = rg s0 R1; k2 : rg s R2 = buf; k3 : rg s R3 = retval;
    kk : forall x, ~ (buf <= x < buf + size) -> ker s x = ker s0 x }.
  Definition kslot (i : Z) (s : mst) : Z := M_Go.le_bytes (bl (ker s) (buf + 8 * i) 8).
  Lemma st2 s off r v : kinv s -> rg s r = v -> 0 <= v < M64 -> 0 <= off -> off + 8 <= size ->
    exists s', exec m [ISt R2 (s16 off) r 8] 0 s = FFall 0 s' /\ kinv s' /\
      (forall x, ~ (buf + off <= x < buf + off + 8) -> ker s' x = ker s x) /\ M_Go.le_bytes (bl (ker s') (buf + off) 8) = v.
  Proof.
    intros I Hr Hv Ho Hs. destruct Hc as [_ [_ Hb] _ _ _]. change (2 ^ 64) with M64 in Hb.
    exists (store s R2 (s16 off) 8 (rg s r)). split; [reflexivity|]. unfold store. change (Nat.eqb R2 RFP) with false. cbv iota.
    rewrite s16_id by lia. rewrite (k2 _ I). rewrite wrap_small by lia. change (Z.of_nat 8) with 8.
    split.
    - split; cbn [set_ker rg]; [apply (k1 _ I)|apply (k2 _ I)|apply (k3 _ I)|].
      intros x Hx. cbn [set_ker ker]. unfold wr. destruct (Z.leb_spec (buf + off) x); destruct (Z.ltb_spec x (buf + off + 8)); cbn [andb]; try (apply (kk _ I); lia). lia.
    - cbn [set_ker ker]. split.
      + intros x Hx. unfold wr. destruct (Z.leb_spec (buf + off) x); destruct (Z.ltb_spec x (buf + off + 8)); cbn [andb]; try reflexivity. lia.
      + rewrite <- le_bl. rewrite Hr. apply le_store. exact Hv.
  Qed.
  Lemma km_args_ok n : forall i s, kinv s -> 0 <= i -> 8 * (i + Z.of_nat n) <= size -> (Z.to_nat i + n <= List.length vals)%nat ->
    exists s', exec m (km_args (8 * i) n) 0 s = FFall 0 s' /\ kinv s' /\
      (forall x, ~ (buf + 8 * i <= x < buf + 8 * (i + Z.of_nat n)) -> ker s' x = ker s x) /\
      forall j, i <= j < i + Z.of_nat n -> kslot j s' = nth (Z.to_nat j) vals 0.
  Proof.
    induction n as [|n IH]; intros i s I Hi Hs Hl.
    - exists s. split; [reflexivity|]. split; [exact I|]. split; [reflexivity|]. intros j Hj. lia.
    - cbn [km_args]. rewrite exec_app. set (off := 8 * i).
      change [ILd R0 R1 (s16 off) 8; ISt R2 (s16 off) R0 8] with ([ILd R0 R1 (s16 off) 8] ++ [ISt R2 (s16 off) R0 8]). rewrite exec_app.
      set (s1 := setr s R0 (load m s R1 (s16 off) 8)). change (exec m [ILd R0 R1 (s16 off) 8] 0 s) with (FFall 0 s1). cbv iota beta.
      destruct (nth_error vals (Z.to_nat i)) as [v|] eqn:Ev; [|apply nth_error_None in Ev; lia].
      destruct Hc as [Ha _ _ _ _]. destruct (Ha _ _ Ev) as (_ & Hv & Hap). rewrite Z2Nat.id in Hv, Hap by lia.
      assert (E0 : rg s1 R0 = v).
      { unfold s1. rewrite rg_setr_eq. unfold load. change (Nat.eqb R1 RFP) with false. cbv iota. unfold off. rewrite s16_id by lia.
        rewrite (k1 _ I). rewrite <- num_at_kread. unfold num_at in Hv |- *. rewrite (bytes_frame m s s0 buf size) by (try exact Hap; apply (kk _ I)). exact Hv. }
      assert (I1 : kinv s1).
      { split; unfold s1; rewrite ?rg_setr_neq by (unfold R0, R1, R2, R3; lia); [apply (k1 _ I)|apply (k2 _ I)|apply (k3 _ I)|]. intros x Hx. cbn [setr ker]. apply (kk _ I). exact Hx. }
      destruct (st2 s1 off R0 v I1 E0) as (s2 & E2 & I2 & K2 & N2); [rewrite <- Hv; apply num_at_range|unfold off; lia|unfold off; lia|].
      rewrite E2. cbv iota beta. destruct (IH (i + 1) s2 I2) as (s3 & E3 & I3 & K3 & N3); try lia.
      replace (8 * (i + 1)) with (off + 8) in E3 by (unfold off; ring).
      exists s3. split; [exact E3|]. split; [exact I3|]. split.
      { intros x Hx. rewrite K3 by lia. rewrite K2 by (unfold off; lia). reflexivity. }
      intros j Hj. destruct (Z.eq_dec j i) as [->|Hne].
      + unfold kslot. rewrite (bl_ext _ (ker s2)). { fold off. rewrite N2. symmetry. apply nth_error_nth. exact Ev. }
        intros x Hx. rewrite K3 by lia. reflexivity.
      + apply N3. lia.
  Qed.
End Km.

Theorem kmulti_round_trip m s maxargs nparams withret vals retval buf c size :
  List.length vals = maxargs -> (maxargs <= 1000)%nat -> gen_output_kmulti maxargs withret = (c, size) -> call_state m s vals retval buf size ->
  exists s', (forall p fuel, code p = c -> (List.length c <= fuel)%nat -> run fuel m p 0 s = Done (rg s' R0) s') /\
    (forall x, ~ (buf <= x < buf + size) -> ker s' x = ker s x) /\
    output_kmulti maxargs nparams (record s' buf size) withret =
      (map (fun i => (nth i vals 0, nth (i + 1) vals 0)) (seq 0 (Nat.min nparams maxargs)), (maxargs <? nparams)%nat, if withret then Some retval else None).
Proof.
  intros Hl Hm Hg Hc. unfold gen_output_kmulti in Hg. pose proof (f_equal snd Hg) as Hsz. pose proof (f_equal fst Hg) as Hcd. cbn [fst snd] in Hsz, Hcd. clear Hg.
  assert (Hsize : size < 2 ^ 15) by (destruct withret; lia).
  assert (I0 : kinv s retval buf size s). { destruct Hc as [_ [H2 _] _ _ [H3 _]]. split; auto. }
  destruct (km_args_ok m s vals retval buf size Hc Hsize maxargs 0 s I0) as (s1 & E1 & I1 & K1 & N1); [lia|destruct withret; lia|lia|].
  rewrite Z.mul_0_r in E1.
  assert (Hs2 : exists s2, exec m (km_args 0 maxargs ++ (if withret then [ISt R2 (s16 (8 * Z.of_nat maxargs)) R3 8] else [])) 0 s = FFall 0 s2 /\
            (forall x, ~ (buf <= x < buf + size) -> ker s2 x = ker s x) /\
            (forall j, 0 <= j < Z.of_nat maxargs -> kslot buf j s2 = nth (Z.to_nat j) vals 0) /\
            (withret = true -> kslot buf (Z.of_nat maxargs) s2 = retval)).
  { rewrite exec_app, E1. cbv iota beta. destruct withret.
    - destruct (st2 m s vals retval buf size Hc Hsize s1 (8 * Z.of_nat maxargs) R3 retval I1 (k3 _ _ _ _ _ I1)) as (s2 & E2 & I2 & K2 & N2);
        [destruct Hc as [_ _ _ _ [_ Hr]]; exact Hr|lia|lia|].
      exists s2. split; [exact E2|]. split; [apply (kk _ _ _ _ _ I2)|]. split; [|intros _; exact N2].
      intros j Hj. rewrite <- N1 by lia. unfold kslot. f_equal. apply bl_ext. intros x Hx. rewrite K2 by lia. reflexivity.
    - exists s1. split; [reflexivity|]. split; [apply (kk _ _ _ _ _ I1)|]. split; [intros j Hj; apply N1; lia|discriminate]. }
  destruct Hs2 as (s2 & E2 & Hk & Hslots & Hret).
  exists s2. split.
  { intros p fuel Hcode Hf. refine (exec_run m _ s s2 _ p fuel (eq_trans Hcode _) _).
    - rewrite exec_app, E2. reflexivity.
    - rewrite <- Hcd. rewrite <- !app_assoc. reflexivity.
    - rewrite Hcode. exact Hf. }
  split; [exact Hk|]. unfold output_kmulti, output_fn_args_kmulti. rewrite record_bl. set (N := Z.to_nat size).
  assert (HN : N = (maxargs * 8 + if withret then 8 else 0)%nat) by (unfold N; destruct withret; lia).
  assert (Hat : forall i, ((i + 1) * 8 <= N)%nat -> M_Go.le_bytes (firstn 8 (skipn (i * 8) (bl (ker s2) buf N))) = kslot buf (Z.of_nat i) s2).
  { intros i Hi. rewrite skipn_bl by lia. rewrite firstn_bl by lia. unfold kslot. do 2 f_equal. lia. }
  assert (Hsl : forall i, km_slot maxargs (bl (ker s2) buf N) i = nth i vals 0).
  { intros i. unfold km_slot. rewrite bl_length. destruct (Nat.ltb_spec i maxargs); cbn [andb].
    - destruct (Nat.leb_spec ((i + 1) * 8) N); [|lia]. rewrite Hat by lia. rewrite Hslots by lia. rewrite Nat2Z.id. reflexivity.
    - symmetry. apply nth_overflow. lia. }
  f_equal; [f_equal|].
  - apply map_ext. intros i. rewrite !Hsl. reflexivity.
  - rewrite bl_length. destruct withret; cbn [negb orb]; [|reflexivity].
    destruct (Nat.ltb_spec N ((maxargs + 1) * 8)); [lia|]. rewrite Hat by lia. rewrite Hret; reflexivity.
Qed.
