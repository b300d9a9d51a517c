(** * Simulation: emitted code computes the C value (supported fragment). *)
From Coq Require Import ZArith List Bool Lia String Ascii.
From Verif Require Import M_Ebpf P_Ebpf M_CcNum M_Cc S_CSem S_CSup P_CcMach P_CcWalk P_CcNumr P_CcMat P_CcVal P_CcOps P_CcOps2.
Import ListNotations.
Open Scope Z_scope.

(** ** Literals *)
Lemma parse_digits_range base s : forall acc n, 0 <= acc < M64 -> 0 <= base -> parse_digits base acc s = inl n -> 0 <= n < M64.
Proof.
  induction s as [|c s IH]; intros acc n Ha Hb; cbn [parse_digits].
  - intros H; inversion H; subst; assumption.
  - destruct (digit_val c) as [d|] eqn:Hd; [|discriminate]. destruct (base <=? d); [discriminate|].
    destruct (Z.leb_spec M64 (acc * base + d)); [discriminate|]. intros H1. apply IH in H1; auto.
    split; [|assumption].
    assert (0 <= d). { unfold digit_val in Hd. destruct (Z.leb_spec 48 (byte c)), (Z.leb_spec (byte c) 57),
      (Z.leb_spec 97 (byte c)), (Z.leb_spec (byte c) 122), (Z.leb_spec 65 (byte c)), (Z.leb_spec (byte c) 90);
      cbn [andb] in Hd; inversion Hd; lia. }
    assert (0 <= acc * base) by (apply Z.mul_nonneg_nonneg; lia). lia.
Qed.
Lemma parse_uint_range base s n : 0 <= base -> parse_uint base s = inl n -> 0 <= n < M64.
Proof.
  intros Hb. unfold parse_uint. destruct s; [discriminate|]. apply parse_digits_range; [unfold M64; lia|assumption].
Qed.
Lemma parse_unsigned_range t n : parse_unsigned t = inl n -> 0 <= n < M64.
Proof.
  unfold parse_unsigned.
  destruct (has_prefix "0x" t); [apply parse_uint_range; lia|].
  destruct (has_prefix "0o" t); [apply parse_uint_range; lia|].
  destruct (has_prefix "0b" t); [apply parse_uint_range; lia|].
  destruct (has_prefix "0" t && Nat.ltb 1 (String.length t)); [apply parse_uint_range; lia|].
  assert (Hc : forall c, 0 <= byte c < 256).
  { intros c. unfold byte. pose proof (nat_ascii_bounded c). lia. }
  destruct t as [|q t]; [apply parse_uint_range; lia|].
  destruct t as [|c t].
  - destruct (Ascii.eqb q quote); [discriminate|apply parse_uint_range; lia].
  - destruct t as [|q' t].
    + destruct (Ascii.eqb q quote); [discriminate|apply parse_uint_range; lia].
    + destruct t as [|z t].
      * destruct (Ascii.eqb q quote); [|apply parse_uint_range; lia].
        destruct (Ascii.eqb q' quote); [|discriminate]. intros H; inversion H; subst.
        pose proof (Hc c). unfold M64. destruct (byte c <? 128); lia.
      * destruct (Ascii.eqb q quote); [discriminate|apply parse_uint_range; lia].
Qed.
Lemma parse_uint_sign base c t : byte c = 45 \/ byte c = 43 -> parse_uint base (String c t) = inr ESyntax.
Proof.
  intros H. unfold parse_uint. cbn [parse_digits]. unfold digit_val.
  destruct H as [->| ->]; reflexivity.
Qed.
Lemma parse_unsigned_sign c t n : byte c = 45 \/ byte c = 43 -> parse_unsigned (String c t) = inl n -> False.
Proof.
  intros H. assert (Hz : Ascii.eqb "0" c = false).
  { apply Ascii.eqb_neq. intros <-. unfold byte in H. cbn in H. lia. }
  assert (Hq : Ascii.eqb c quote = false).
  { apply Ascii.eqb_neq. intros ->. unfold byte in H. cbn in H. lia. }
  unfold parse_unsigned. cbn [has_prefix]. rewrite Hz. cbn [andb].
  destruct t as [|c2 [|c3 [|c4 t]]]; rewrite Hq, parse_uint_sign by assumption; discriminate.
Qed.
Lemma parse_number_unsigned t n : parse_unsigned t = inl n -> parse_number t = inl (s64 n).
Proof.
  intros H. unfold parse_number.
  destruct t as [|c t].
  - cbn [has_prefix]. rewrite H. reflexivity.
  - assert (Hm : has_prefix "-" (String c t) = false).
    { cbn [has_prefix]. rewrite andb_true_r. apply Ascii.eqb_neq. intros <-.
      eapply parse_unsigned_sign; [|exact H]. left; reflexivity. }
    assert (Hp : has_prefix "+" (String c t) = false).
    { cbn [has_prefix]. rewrite andb_true_r. apply Ascii.eqb_neq. intros <-.
      eapply parse_unsigned_sign; [|exact H]. right; reflexivity. }
    rewrite Hm, Hp, H. reflexivity.
Qed.

Lemma upd_last_snoc f l o : upd_last f (l ++ [o]) = l ++ [f o].
Proof.
  induction l as [|x l IH]; [reflexivity|]. cbn [app upd_last].
  destruct (l ++ [o]) eqn:H; [destruct l; discriminate|]. rewrite IH. reflexivity.
Qed.
Lemma var_lookup vs x i : var_index vs x i = lookup_var vs x i.
Proof. revert i; induction vs as [|[y t] vs IH]; intros i; cbn [var_index lookup_var]; [reflexivity|]. rewrite IH. reflexivity. Qed.
Lemma lookup_lt vs x : forall i j t, lookup_var vs x i = Some (j, t) -> (j < i + List.length vs)%nat.
Proof.
  induction vs as [|[y u] vs IH]; intros i j t; cbn [lookup_var List.length]; [discriminate|].
  destruct (String.eqb x y); [intros H; inversion H; subst; lia|]. intros H. apply IH in H. lia.
Qed.
Definition is_num (e : expr) : bool := match e with ENum _ => true | _ => false end.

Section Sim.
  Variables (K : cfg) (C : cenv) (m : mach) (A : Z).
  Hypothesis Hmap : forall a, ce_map C a = true -> mapped m a = true.
  Hypothesis HE : ce_bt C = cf_env K.
  Hypothesis HV : ce_vars C = cf_vars K.
  Hypothesis Hslot : forall i, (i < List.length (cf_vars K))%nat ->
    Z.of_nat i * 8 < 2 ^ 15 /\ rd C (A + Z.of_nat i * 8) 8 = Some (ce_slot C i).
  Notation E := (cf_env K).
  Notation walk := (walk K C).
  Notation bval := (bval C).
  Notation bok := (bok K).
  Notation lim := (lim K).
  Notation vrel := (vrel K C).
  Notation ptr_inv := (ptr_inv K).
  Notation nowr := (nowr K).
  Notation Sok := (Sok K).
  Notation pre := (pre C A).
  Notation sem := (csem C (cc2btf E)).
  Notation sup := (sup K C).
  Notation ptrval_spec := (ptrval_spec K C m A Hmap HE Hslot).
  Notation ld_mval := (ld_mval K C m Hmap HE).
  Notation ldr_mval := (ldr_mval K C m Hmap HE).

  (** ** Values *)
  Lemma of_raw_ptr_inv t raw c : of_raw t raw = Some c -> ptr_inv c (Some t).
  Proof.
    intros H a u ->. destruct (of_raw_num K t raw _ H) as (n & _ & _ & Hp & _).
    destruct (Hp a u eq_refl) as [H1 H2]. eauto.
  Qed.
  Lemma name_rel x c k ms : sem (EName x) = Some c -> sup (EName x) = Some k -> vrel ms (eval_name K x) c k.
  Proof.
    cbn [csem S_CSup.sup]. unfold eval_name. rewrite HV. change (var_index (cf_vars K) x 0) with (lookup_var (cf_vars K) x 0).
    destruct (String.eqb x "NULL" || String.eqb x "false") eqn:H1; cbn [orb].
    { intros Hc Hk; inversion Hc; inversion Hk; subst. cbn [P_CcVal.vrel]. exists 0, 4, true. repeat split; lia. }
    destruct (String.eqb x "true") eqn:H2.
    { intros Hc Hk; inversion Hc; inversion Hk; subst. cbn [P_CcVal.vrel]. exists 1, 4, true. repeat split; lia. }
    destruct (lookup_var (cf_vars K) x 0) as [[i t]|] eqn:Hl.
    - intros Hc Hk; inversion Hk; subst k. cbn [P_CcVal.vrel].
      destruct (of_raw_num K t _ _ Hc) as (n & Hn & Hr & _). exists n. split; [assumption|].
      split; [eapply of_raw_ptr_inv; eassumption|].
      exists (PVar i), [], None, (ce_slot C i). split; [reflexivity|]. split; [reflexivity|].
      split; [apply lookup_lt in Hl; cbn [P_CcMat.bok]; lia|]. split; [reflexivity|].
      split; [intros _; symmetry; apply Hr|discriminate].
    - destruct (ce_enum C x) as [n|]; [|discriminate]. unfold mkint. intros Hc Hk; inversion Hc; inversion Hk; subst.
      cbn [P_CcVal.vrel]. eauto.
  Qed.
  Lemma literal_rel t n c k ms : parse_number t = inl n -> sem (ENum t) = Some c -> sup (ENum t) = Some k ->
    vrel ms (VConst n None) c k.
  Proof.
    cbn [csem S_CSup.sup]. destruct (parse_unsigned t) as [n'|] eqn:Hp; [|discriminate].
    rewrite (parse_number_unsigned _ _ Hp). intros Hn Hc Hk. inversion Hn; subst n; clear Hn.
    destruct (Z.ltb_spec n' (2 ^ 63)); [|discriminate]. inversion Hk; subst k.
    pose proof (parse_unsigned_range _ _ Hp). unfold mkint in Hc. inversion Hc; subst c.
    rewrite s64_id by lia. cbn [P_CcVal.vrel]. eexists n', _, _. split; [reflexivity|]. split; [reflexivity|]. lia.
  Qed.

  Lemma member_look p u name c : c_member C p u name = Some c ->
    exists mm off, find_member E (under u) name = Some (mm, off) /\
      c = CLoc (p + off) (m_ty mm) (if m_bits mm =? 0 then None else Some (m_bitoff mm mod 8, m_bits mm)).
  Proof.
    unfold c_member, find_member. rewrite HE. destruct (under u); try discriminate.
    - destruct (e_smember E tag name) as [[mm off]|]; [|discriminate]. intros H; inversion H. eauto.
    - destruct (e_umember E tag name) as [[mm off]|]; [|discriminate]. intros H; inversion H. eauto.
  Qed.
  Lemma bfrel_member mm : bfrel (Some mm) (if m_bits mm =? 0 then None else Some (m_bitoff mm mod 8, m_bits mm)).
  Proof.
    unfold bfrel, is_bf. destruct (Z.eqb_spec (m_bits mm) 0) as [H|H]; [reflexivity|].
    exists mm. auto.
  Qed.
  Lemma small_15 off : (0 <=? off) && (off <? 2 ^ 15) = true -> small off = true.
  Proof.
    intros H. bsplit H. unfold small. apply andb_true_iff. split; [apply Z.leb_le|apply Z.ltb_lt]; lia.
  Qed.

  Lemma arrow_rel ms v c k name v' p u c' k' p' tt u' :
    access_member K v name true = Some v' -> vrel ms v c k ->
    rval C c = Some (CPtr p u) -> c_member C p u name = Some c' ->
    ptrval K C c k = Some (p', tt) -> ptr_elt tt = Some u' -> sup_member K (Some tt) u' name = Some k' ->
    vrel ms v' c' k' /\ vregs v' = vregs v.
  Proof.
    intros Ha Hv Hrv Hmem Hpt Hpe Hsup.
    destruct (ptrval_spec _ _ _ _ _ _ Hv Hpt) as (Hbt & Hlim & Hrng & Hbf & (u0 & Hrv' & Hpe') & Hcase).
    rewrite Hrv in Hrv'. inversion Hrv'; subst p' u0; clear Hrv'.
    assert (u' = u) by congruence. subst u'.
    destruct (member_look _ _ _ _ Hmem) as (mm & off & Hfind & ->).
    unfold sup_member in Hsup. rewrite Hfind in Hsup.
    unfold access_member in Ha. rewrite Hbf, Hbt in Ha.
    destruct (under tt) as [|? ?|? ?|u1|? ?|?|?|?|?] eqn:Hu; try discriminate.
    unfold ptr_elt in Hpe. rewrite Hu in Hpe. inversion Hpe; subst u1. rewrite Hfind in Ha.
    assert (Hcore : forall b offs, bok ms b -> walk (bval ms b) offs = Some p -> (ends_deref offs = true -> p <> 0) ->
      vrel ms (VPend b (offs ++ [arrow_off off mm (Some tt)]) (Some (m_ty mm)) (if is_arr (m_ty mm) then None else Some mm))
        (CLoc (p + off) (m_ty mm) (if m_bits mm =? 0 then None else Some (m_bitoff mm mod 8, m_bits mm))) k').
    { intros b offs Hb Hw Hnz. destruct (is_arr (m_ty mm)) eqn:Harr.
      - destruct (small off && (m_bits mm =? 0)) eqn:Hg; [|discriminate]. apply andb_prop in Hg as [Hsm Hb0].
        inversion Hsup; subst k'. rewrite Hb0. cbn [P_CcVal.vrel].
        exists b, offs, (arrow_off off mm (Some tt)), (m_ty mm), None, (p + off), p.
        do 2 (split; [reflexivity|]). do 3 (split; [assumption|]).
        split; [cbn [arrow_off o_deref]; rewrite Harr; reflexivity|]. split; [reflexivity|].
        split; [assumption|]. split; reflexivity.
      - destruct ((0 <=? off) && (off <? 2 ^ 15)) eqn:Hg; [|discriminate]. inversion Hsup; subst k'.
        cbn [P_CcVal.vrel].
        exists b, offs, (arrow_off off mm (Some tt)), (m_ty mm), (Some mm), (p + off), (if m_bits mm =? 0 then None else Some (m_bitoff mm mod 8, m_bits mm)), p.
        do 2 (split; [reflexivity|]). do 3 (split; [assumption|]).
        split; [cbn [arrow_off o_deref]; rewrite Harr; reflexivity|].
        do 4 (split; [reflexivity|]). split; [apply bfrel_member|apply small_15; assumption]. }
    destruct Hcase as [(b & offs & mm' & -> & Hb & Hw & Hnz)|(r & -> & Hr)].
    - inversion Ha; subst v'. split; [apply Hcore; assumption|]. destruct b; reflexivity.
    - inversion Ha; subst v'. split; [|reflexivity].
      apply (Hcore (PReg r) []); [cbn [P_CcMat.bok]; rewrite Hr, M64_pow; assumption|cbn [P_CcWalk.walk P_CcMat.bval]; congruence|discriminate].
  Qed.

  Lemma dot_rel ms v name v' p t c' k k' :
    access_member K v name false = Some v' -> vrel ms v (CLoc p t None) k ->
    c_member C p t name = Some c' ->
    match k with
    | KLoc prev off =>
            match find_member E (under t) name with
            | Some (mm, off') =>
                if is_arr (m_ty mm) then
                  (if small (off + off') && (m_bits mm =? 0) then Some (KElem (off + off')) else None)
                else if (0 <=? off + off') && (off + off' <? 2 ^ 15)
                     then Some (KLoc prev (off + off')) else None
            | None => None
            end
    | KElem off =>
            match find_member E (under t) name with
            | Some (mm, off') => if small (off + off') && (m_bits mm =? 0)
                                 then Some (KElem (off + off')) else None
            | None => None
            end
    | _ => None
    end = Some k' -> vrel ms v' c' k' /\ vregs v' = vregs v.
  Proof.
    intros Ha Hv Hmem Hsup. destruct (member_look _ _ _ _ Hmem) as (mm & off' & Hfind & ->).
    unfold access_member in Ha. rewrite Hfind in Hsup.
    destruct (is_bf (v_mem v)) eqn:Hbf; [discriminate|].
    destruct k as [t0|x|prev off|off|t0 pend hop]; try discriminate.
    - destruct Hv as (b & offs & o & t1 & mm' & a & bf & q & -> & Hc & Hb & Hw & Hnz & Hd & Ho & Hp & Hob & Haa & Hbr & Hsm).
      inversion Hc; subst a t1 bf; clear Hc. subst p. cbn [v_btf] in Ha. rewrite Hfind in Ha. rewrite upd_last_snoc in Ha.
      assert (Hne : exists x l, offs ++ [o] = x :: l) by (destruct offs; cbn [app]; eauto). destruct Hne as (x0 & l0 & Hne).
      rewrite Hne in Ha. inversion Ha; subst v'; clear Ha Hne.
      split; [|destruct b; reflexivity].
      destruct (is_arr (m_ty mm)) eqn:Harr.
      + destruct (small (off + off') && (m_bits mm =? 0)) eqn:Hg; [|discriminate]. apply andb_prop in Hg as [Hs2 Hb0].
        inversion Hsup; subst k'. rewrite Hb0. cbn [P_CcVal.vrel].
        do 7 eexists. do 2 (split; [reflexivity|]). split; [exact Hb|]. split; [exact Hw|]. split; [exact Hnz|].
        cbn [o_deref o_off]. split; [reflexivity|]. rewrite Ho.
        split; [apply s64_id; unfold small in Hs2; bsplit Hs2; lia|]. split; [exact Hs2|]. split; [lia|reflexivity].
      + destruct ((0 <=? off + off') && (off + off' <? 2 ^ 15)) eqn:Hg; [|discriminate].
        inversion Hsup; subst k'. cbn [P_CcVal.vrel].
        do 8 eexists. do 2 (split; [reflexivity|]). split; [exact Hb|]. split; [exact Hw|]. split; [exact Hnz|].
        cbn [o_deref o_off o_prev o_btf]. split; [exact Hd|]. rewrite Ho.
        split; [apply s64_id; bsplit Hg; lia|]. split; [exact Hp|]. split; [reflexivity|]. split; [lia|].
        split; [apply bfrel_member|apply small_15; assumption].
    - destruct Hv as (b & offs & o & t1 & mm' & a & q & -> & Hc & Hb & Hw & Hnz & Hd & Ho & Hsm & Haa & Hbr).
      inversion Hc; subst a t1; clear Hc. subst p. cbn [v_btf] in Ha. rewrite Hfind in Ha. rewrite upd_last_snoc in Ha.
      assert (Hne : exists x l, offs ++ [o] = x :: l) by (destruct offs; cbn [app]; eauto). destruct Hne as (x0 & l0 & Hne).
      rewrite Hne in Ha. inversion Ha; subst v'; clear Ha Hne.
      split; [|destruct b; reflexivity].
      destruct (small (off + off') && (m_bits mm =? 0)) eqn:Hg; [|discriminate]. apply andb_prop in Hg as [Hs2 Hb0].
      inversion Hsup; subst k'. rewrite Hb0. cbn [P_CcVal.vrel].
      do 7 eexists. do 2 (split; [reflexivity|]). split; [exact Hb|]. split; [exact Hw|]. split; [exact Hnz|].
      cbn [o_deref o_off]. split; [destruct (is_arr (m_ty mm)); [reflexivity|exact Hd]|]. rewrite Ho.
      split; [apply s64_id; unfold small in Hs2; bsplit Hs2; lia|]. split; [exact Hs2|]. split; [lia|].
      destruct (is_arr (m_ty mm)); [reflexivity|]. unfold is_bf. rewrite Hb0. reflexivity.
  Qed.

  Lemma index_rel ms v c k n v' p u st p' tt u' :
    index_value K v n = Some v' -> vrel ms v c k -> 0 <= n ->
    rval C c = Some (CPtr p u) -> step_size C u = Some st ->
    ptrval K C c k = Some (p', tt) -> ptr_elt tt = Some u' -> small (n * sizeof0 E (Some u')) = true ->
    vrel ms v' (CLoc (p + n * st) u None) (KElem (n * sizeof0 E (Some u'))) /\ vregs v' = vregs v.
  Proof.
    intros Ha Hv Hn0 Hrv Hst Hpt Hpe Hsm.
    destruct (ptrval_spec _ _ _ _ _ _ Hv Hpt) as (Hbt & Hlim & Hrng & Hbf & (u0 & Hrv' & Hpe') & Hcase).
    rewrite Hrv in Hrv'. inversion Hrv'; subst p' u0; clear Hrv'.
    assert (u' = u) by congruence. subst u'.
    unfold index_value in Ha. rewrite Hbt in Ha.
    assert (Hel : exists ia, match under tt with TPtr u => Some (u, false) | TArr u _ => Some (u, true) | _ => None end = Some (u, ia)).
    { unfold ptr_elt in Hpe. destruct (under tt); try discriminate; inversion Hpe; eauto. }
    destruct Hel as [ia Hel]. rewrite Hel in Ha.
    destruct (Z.eqb_spec (sizeof0 E (Some u)) 0) as [|Hsz]; [discriminate|].
    assert (Hs : st = sizeof0 E (Some u)).
    { unfold step_size in Hst. rewrite HE in Hst. unfold sizeof0 in *. rewrite sizeof_under in *.
      destruct (under u); cbn [sizeof] in *; try (inversion Hst; subst; congruence).
      all: match type of Hst with match ?a with _ => _ end = _ => destruct a eqn:Hz | _ => idtac end; try discriminate.
      all: destruct (0 <? _); inversion Hst; reflexivity. }
    subst st.
    assert (Hs64 : s64 (n * sizeof0 E (Some u)) = n * sizeof0 E (Some u)).
    { apply s64_id. unfold small in Hsm. bsplit Hsm. lia. }
    rewrite Hs64 in Ha.
    destruct Hcase as [(b & offs & mm' & -> & Hb & Hw & Hnz)|(r & -> & Hr)].
    - inversion Ha; subst v'. split; [|destruct b; reflexivity]. cbn [P_CcVal.vrel].
      do 7 eexists. do 2 (split; [reflexivity|]). split; [exact Hb|]. split; [exact Hw|]. split; [exact Hnz|].
      cbn [o_deref o_off]. split; [reflexivity|]. split; [reflexivity|]. split; [exact Hsm|]. split; reflexivity.
    - inversion Ha; subst v'. split; [|reflexivity]. cbn [P_CcVal.vrel].
      exists (PReg r), []. do 5 eexists. split; [reflexivity|]. split; [reflexivity|].
      split; [cbn [P_CcMat.bok]; rewrite Hr, M64_pow; assumption|]. split; [cbn [P_CcWalk.walk P_CcMat.bval]; rewrite Hr; reflexivity|].
      split; [discriminate|].
      cbn [o_deref o_off]. split; [reflexivity|]. split; [reflexivity|]. split; [exact Hsm|]. split; reflexivity.
  Qed.

  Lemma indir_rel ms v c k v' p u p' tt :
    indir_value v = Some v' -> vrel ms v c k -> rval C c = Some (CPtr p u) ->
    ptrval K C c k = Some (p', tt) ->
    vrel ms v' (CLoc p u None) (KLoc (Some tt) 0) /\ vregs v' = vregs v.
  Proof.
    intros Ha Hv Hrv Hpt.
    destruct (ptrval_spec _ _ _ _ _ _ Hv Hpt) as (Hbt & Hlim & Hrng & Hbf & (u0 & Hrv' & Hpe') & Hcase).
    rewrite Hrv in Hrv'. inversion Hrv'; subst p' u0; clear Hrv'.
    unfold indir_value in Ha. rewrite Hbf, Hbt in Ha.
    destruct (under tt) as [|? ?|? ?|u1|? ?|?|?|?|?] eqn:Hu; try discriminate.
    unfold ptr_elt in Hpe'. rewrite Hu in Hpe'. inversion Hpe'; subst u1.
    destruct Hcase as [(b & offs & mm' & -> & Hb & Hw & Hnz)|(r & -> & Hr)].
    - inversion Ha; subst v'. split; [|destruct b; reflexivity]. cbn [P_CcVal.vrel].
      do 8 eexists. do 2 (split; [reflexivity|]). split; [exact Hb|]. split; [exact Hw|]. split; [exact Hnz|].
      cbn [o_deref o_off o_prev o_btf]. do 4 (split; [reflexivity|]). split; [lia|]. split; reflexivity.
    - inversion Ha; subst v'. split; [|reflexivity]. cbn [P_CcVal.vrel].
      exists (PReg r), []. do 6 eexists. split; [reflexivity|]. split; [reflexivity|].
      split; [cbn [P_CcMat.bok]; rewrite Hr, M64_pow; assumption|]. split; [cbn [P_CcWalk.walk P_CcMat.bval]; rewrite Hr; reflexivity|].
      split; [discriminate|].
      cbn [o_deref o_off o_prev o_btf]. do 4 (split; [reflexivity|]). split; [lia|]. split; reflexivity.
  Qed.

  Lemma small_s32ok off : small off = true -> s32ok off = true.
  Proof.
    unfold small, s32ok. intros H. bsplit H. apply andb_true_iff. split; [apply Z.leb_le|apply Z.ltb_lt]; lia.
  Qed.
  Lemma walk_addr b offs o p (f : poff -> poff) ms off : walk (bval ms b) offs = Some p ->
    (ends_deref offs = true -> p <> 0) -> o_deref (f o) = false -> o_off (f o) = off -> small off = true ->
    walk (bval ms b) (upd_last f (offs ++ [o])) = Some (wrap (p + off)).
  Proof.
    intros Hw Hnz Hd Ho Hsm. rewrite upd_last_snoc, walk_snoc, Hw, Hd, Ho. cbn [negb].
    rewrite (small_s32ok _ Hsm). destruct (ends_deref offs) eqn:He; cbn [andb]; [|reflexivity].
    destruct (Z.eqb_spec p 0) as [Hp|]; [exfalso; apply Hnz; auto|reflexivity].
  Qed.

  Lemma addr_rel ms v v' p t k :
    addr_value v = Some v' -> vrel ms v (CLoc p t None) k ->
    (exists prev off, k = KLoc prev off) \/ (exists off, k = KElem off) ->
    vrel ms v' (CPtr (wrap p) t) (KVal (Some (TPtr t)) true false) /\ vregs v' = vregs v.
  Proof.
    intros Ha Hv Hk.
    assert (H : exists b offs o mm q off, v = VPend b (offs ++ [o]) (Some t) mm /\ bok ms b /\
       walk (bval ms b) offs = Some q /\ (ends_deref offs = true -> q <> 0) /\ o_off o = off /\ small off = true /\ p = q + off).
    { destruct Hk as [(prev & off & ->)|(off & ->)].
      - destruct Hv as (b & offs & o & t1 & mm' & a & bf & q & -> & Hc & Hb & Hw & Hnz & Hd & Ho & Hp & Hob & Haa & Hbr & Hsm).
        inversion Hc; subst a t1 bf; clear Hc. do 6 eexists. split; [reflexivity|]. eauto 10.
      - destruct Hv as (b & offs & o & t1 & mm' & a & q & -> & Hc & Hb & Hw & Hnz & Hd & Ho & Hsm & Haa & Hbr).
        inversion Hc; subst a t1; clear Hc. do 6 eexists. split; [reflexivity|]. eauto 10. }
    destruct H as (b & offs & o & mm & q & off & -> & Hb & Hw & Hnz & Ho & Hsm & ->).
    unfold addr_value in Ha.
    assert (Hne : exists x l, offs ++ [o] = x :: l) by (destruct offs; cbn [app]; eauto). destruct Hne as (x0 & l0 & Hne).
    rewrite Hne in Ha. rewrite <- Hne in Ha. inversion Ha; subst v'; clear Ha Hne.
    split; [|destruct b; reflexivity]. cbn [P_CcVal.vrel]. exists (wrap (q + off)). split; [reflexivity|].
    split.
    { intros a u Hc. inversion Hc; subst. exists (TPtr u). split; [reflexivity|]. split; [reflexivity|].
      eapply tw_ptr. reflexivity. }
    do 4 eexists. split; [reflexivity|]. split; [reflexivity|]. split; [exact Hb|].
    split; [apply (walk_addr b offs o q _ ms off); auto|].
    split; [|intros He; rewrite upd_last_snoc, ends_deref_snoc in He; discriminate].
    intros _. reflexivity.
  Qed.

  (** ** Casts *)
  Lemma lim_tw t : lim t = 2 ^ (8 * tw K t). Proof. reflexivity. Qed.
  Lemma tw_pos t : 1 <= tw K t <= 8.
  Proof.
    unfold tw. destruct (Z.eqb_spec (sizeof0 E t) 1) as [->|]; cbn [orb]; [lia|].
    destruct (Z.eqb_spec (sizeof0 E t) 2) as [->|]; cbn [orb]; [lia|].
    destruct (Z.eqb_spec (sizeof0 E t) 4) as [->|]; cbn [orb]; lia.
  Qed.
  Lemma narrow_mod t t0 raw n : tw K t <= tw K t0 -> raw mod lim t0 = n mod lim t0 -> raw mod lim t = n mod lim t.
  Proof.
    rewrite !lim_tw. intros H Hm. pose proof (tw_pos t).
    rewrite <- (mod_pow_le raw (8 * tw K t) (8 * tw K t0)), Hm, mod_pow_le by lia. reflexivity.
  Qed.
  Lemma cast_rel ms v c k x t res k' :
    vrel ms v c k -> rval C c = Some x -> c_cast t x = Some res -> sup_cast K C t c k res = Some k' ->
    vrel ms (cast_value v t) res k' /\ vregs (cast_value v t) = vregs v.
  Proof.
    intros Hv Hx Hres Hsup. split; [|destruct v as [| [| |] | |]; reflexivity].
    unfold c_cast in Hres. destruct (num x) as [nx|] eqn:Hnx; [|discriminate].
    destruct (of_raw_num K t nx res Hres) as (n' & Hn' & Hmod & _).
    pose proof (of_raw_ptr_inv _ _ _ Hres) as Hpi.
    unfold sup_cast in Hsup. rewrite Hn' in Hsup.
    destruct k as [t0|y|prev off|off|t0 pend hop].
    - destruct Hv as (n & w & sg & -> & -> & Hr). cbn [rval] in Hx. inversion Hx; subst x. cbn [num] in Hnx.
      inversion Hnx; subst nx. destruct res as [n2 w2 sg2| |]; try discriminate. cbn [num] in Hn'. inversion Hn'; subst n2.
      destruct (Z.eqb_spec n' n) as [->|]; [|discriminate]. inversion Hsup; subst k'.
      cbn [cast_value P_CcVal.vrel]. exists n, w2, sg2. auto.
    - discriminate.
    - destruct c as [| |a t0 [|]]; try discriminate.
      destruct (ldr K C (CLoc a t0 None) (KLoc prev off)) as [[[n tt] l]|] eqn:Hl; [|discriminate].
      destruct (readable K C a prev (Some t) off) as [nb|] eqn:Hrd; [|discriminate].
      destruct (Z.leb_spec (tw K (Some t)) (tw K (Some t0))) as [Hg1|]; [|discriminate].
      inversion Hsup; subst k'.
      destruct (ldr_mval _ _ _ _ _ _ _ Hv Hl) as (_ & _ & _ & Hrn & _ & (x' & Hx' & Hnx' & _) & _).
      rewrite Hx in Hx'. inversion Hx'; subst x'. rewrite Hnx in Hnx'. inversion Hnx'; subst nx. clear Hx' Hnx'.
      destruct Hv as (b & offs & o & t1 & mm' & a' & bf & q & -> & Hc & Hb & Hw & Hnz & Hd & Ho & Hp & Hob & Haa & Hbr & Hsm).
      injection Hc as <- <- <-. cbn [cast_value]. rewrite upd_last_snoc.
      match goal with |- context [offs ++ [?o']] => set (o2 := o') end.
      destruct (readable_rd K C _ _ _ _ _ q o2 Hrd Haa) as (raw & Hhop & Hraw & Hoff & Hnb); try (unfold o2; cbn; assumption); try reflexivity.
      assert (Harr : is_arr t0 = false).
      { cbn [ldr] in Hl. destruct (readable K C a prev (Some t0) off); [|discriminate].
        rewrite Hx in Hl. destruct x; try discriminate; destruct (is_arr t0); cbn [orb] in Hl; try discriminate; reflexivity. }
      (* the object read with its own type *)
      assert (Hobj : exists w0 raw0, sizeof E t0 = Some w0 /\ rd C a (Z.to_nat w0) = Some raw0 /\ of_raw t0 raw0 = Some x).
      { cbn [rval] in Hx. rewrite HE in Hx. unfold is_arr in Harr.
        destruct (under t0); try discriminate;
          (destruct (sizeof E t0) as [w0|]; [|discriminate]; destruct (rd C a (Z.to_nat w0)) as [raw0|] eqn:Hr0; [|discriminate];
           exists w0, raw0; auto). }
      destruct Hobj as (w0 & raw0 & Hsz0 & Hrd0 & Hof0).
      destruct (of_raw_width K _ _ _ Hof0) as (w0' & Hw0' & Hw0c). rewrite Hsz0 in Hw0'. inversion Hw0'; subst w0'. clear Hw0'.
      destruct (of_raw_width K _ _ _ Hres) as (w & Hsz & Hwc).
      destruct (of_raw_num K _ _ _ Hof0) as (n0 & Hn0 & Hmod0 & _). rewrite Hnx in Hn0. inversion Hn0; subst n0. clear Hn0.
      pose proof (lim_sz K _ _ Hsz Hwc) as Hlt. pose proof (lim_sz K _ _ Hsz0 Hw0c) as Hlt0.
      pose proof (nbytes_ge K _ _ _ _ _ Hnb Hsz Hwc) as Hge.
      assert (Hww : w <= w0).
      { assert (H1 : 2 ^ (8 * w) <= 2 ^ (8 * w0)).
        { rewrite <- Hlt, <- Hlt0, !lim_tw. apply Z.pow_le_mono_r; lia. }
        apply Z.pow_le_mono_r_iff in H1; lia. }
      assert (Heq : raw mod 2 ^ (8 * w) = raw0 mod 2 ^ (8 * w)).
      { pose proof (rd_sub C _ _ (Z.to_nat w) _ Hraw) as H1. pose proof (rd_sub C _ _ (Z.to_nat w) _ Hrd0) as H2.
        rewrite Z2Nat.id in * by lia.
        specialize (H1 ltac:(lia)). specialize (H2 ltac:(lia)). congruence. }
      cbn [P_CcVal.vrel]. exists n'. split; [assumption|]. split; [assumption|].
      exists b, (offs ++ [o2]), mm', raw. split; [reflexivity|].
      split; [exact Hbr|]. split; [assumption|].
      split.
      { rewrite walk_snoc, Hw. replace (o_deref o2) with true by (unfold o2; cbn; congruence). cbn [negb].
        destruct (ends_deref offs) eqn:He; cbn [andb]; [|assumption].
        destruct (Z.eqb_spec q 0) as [Hq|]; [exfalso; apply Hnz; auto|assumption]. }
      split; [|reflexivity]. intros _. rewrite (proj2 Hmod), Hlt, Heq.
      apply proj2 in Hmod0. rewrite Hlt0 in Hmod0.
      rewrite <- (mod_pow_le raw0 (8 * w) (8 * w0)), <- Hmod0, mod_pow_le by lia. reflexivity.
    - destruct c as [| |a t0 [|]]; try discriminate.
      destruct (is_arr t0) eqn:Harr; [|discriminate].
      inversion Hsup; subst k'.
      destruct Hv as (b & offs & o & t1 & mm' & a' & q & -> & Hc & Hb & Hw & Hnz & Hd & Ho & Hsm & Haa & Hbr).
      injection Hc as <- <-.
      assert (Hxa : nx = wrap a).
      { cbn [rval] in Hx. unfold is_arr in Harr. destruct (under t0); try discriminate.
        inversion Hx; subst x. cbn [num] in Hnx. inversion Hnx. reflexivity. }
      cbn [cast_value P_CcVal.vrel]. exists n'. split; [assumption|]. split; [assumption|].
      do 4 eexists. split; [reflexivity|]. split; [exact Hbr|]. split; [exact Hb|].
      split; [apply (walk_addr b offs o q _ ms off); auto|].
      split; [|intros He; rewrite upd_last_snoc, ends_deref_snoc in He; cbn [o_deref] in He; congruence].
      intros _. rewrite (proj2 Hmod), Hxa, Haa. reflexivity.
    - destruct pend.
      + destruct hop; [discriminate|].
        destruct (ldr K C c (KVal t0 true false)) as [[[n tt] l]|] eqn:Hl; [|discriminate].
        destruct (Z.leb_spec (tw K (Some t)) (tw K t0)) as [Hg1|]; [|discriminate].
        inversion Hsup; subst k'.
        destruct Hv as (n0 & Hn0 & Hpi0 & b & offs & mm & raw & -> & Hbf & Hb & Hw & Hrw & He).
        assert (Hcx : x = c) by (destruct c; cbn [rval num] in *; congruence). subst x.
        rewrite Hnx in Hn0. inversion Hn0; subst n0. clear Hn0.
        assert (Hrng : inrep (lim t0) nx).
        { cbn [ldr] in Hl. destruct c as [z ? ?|z ?|]; cbn [num] in Hnx; try discriminate; inversion Hnx; subst z;
          destruct ((- lim t0 <=? 2 * nx) && (nx <? lim t0)) eqn:Hq; try discriminate; bsplit Hq; unfold inrep; lia. }
        cbn [cast_value P_CcVal.vrel]. exists n'. split; [assumption|]. split; [assumption|].
        do 4 eexists. split; [reflexivity|]. split; [exact Hbf|]. split; [exact Hb|].
        destruct (rev offs) as [|o0 l0] eqn:Hrev.
        { assert (offs = []) by (rewrite <- (rev_involutive offs), Hrev; reflexivity). subst offs.
          cbn [upd_last]. split; [exact Hw|]. split; [|discriminate].
          intros _. rewrite (proj2 Hmod). apply narrow_mod with (t0 := t0); [lia|auto]. }
        assert (Hoffs : offs = rev l0 ++ [o0]) by (rewrite <- (rev_involutive offs), Hrev; reflexivity).
        rewrite Hoffs in *. rewrite upd_last_snoc.
        assert (Hd0 : o_deref o0 = false).
        { rewrite ends_deref_snoc in He. destruct (o_deref o0); [discriminate (He eq_refl)|reflexivity]. }
        split.
        { rewrite walk_snoc in Hw |- *. cbn [o_deref o_off]. destruct (walk (bval ms b) (rev l0)) as [q|]; [|discriminate].
          destruct (ends_deref (rev l0) && (q =? 0)); [discriminate|]. rewrite Hd0 in *. cbn [negb] in *. exact Hw. }
        split; [|rewrite ends_deref_snoc; cbn [o_deref]; congruence].
        intros _. rewrite (proj2 Hmod). apply narrow_mod with (t0 := t0); [lia|auto].
      + destruct (ld K C c (KVal t0 false hop)) as [[[n tt] l]|] eqn:Hl; [|discriminate].
        destruct (Z.eqb_spec n' n) as [->|]; [|discriminate]. inversion Hsup; subst k'.
        destruct Hv as (n0 & Hn0 & Hpi0 & r & -> & Hrg & Hrr).
        assert (Hq : n0 = n /\ 0 <= n0 < lim t0).
        { destruct (ld_ldr K C _ _ _ _ _ Hl) as [Hl' Hnn].
          cbn [ldr] in Hl'. destruct c as [z ? ?|z ?|]; cbn [num] in Hn0; try discriminate; inversion Hn0; subst z;
          destruct ((- lim t0 <=? 2 * n0) && (n0 <? lim t0)) eqn:Hq; try discriminate; inversion Hl'; subst; bsplit Hq; lia. }
        destruct Hq as [-> Hq].
        cbn [cast_value P_CcVal.vrel]. exists n. split; [assumption|]. split; [assumption|].
        exists r. split; [reflexivity|]. split; [|assumption]. intros [_ Hlt].
        rewrite Hrg by (unfold inrep; lia). rewrite !Z.mod_small by lia. reflexivity.
  Qed.
End Sim.
