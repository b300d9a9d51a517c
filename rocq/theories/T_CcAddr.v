(** * Properties C10 and C11: addresses and elements. *)
From Coq Require Import ZArith List Bool String Lia.
From Verif Require Import M_Ebpf M_CcNum M_Cc S_CSem S_CSup P_CcMach P_CcMat P_CcOps P_CcVals P_CcTop S_Path P_CcAddr X_CcDemo T_CcVals.
Import ListNotations.
Open Scope string_scope.
Open Scope Z_scope.

(** ** C10.  `&x->f.g[i].h op k` for a pointer parameter x and any path of members and literal indices: the filter compares
    the value of x plus the sum of the offsets with k.  Nothing is assumed about memory except the argument slots: the path
    may lie in unmapped memory, so it is not read. *)
Theorem C10_address_of_path_is_base_plus_offsets : forall K C m ms args op x i pt t f l d u r k p,
  matches K C m ms args -> plain_name x = true -> lookup_var (cf_vars K) x 0 = Some (i, pt) -> under pt = TPtr t ->
  path_off K t (SDot f :: l) = Some (d, u) -> path_ok K t 0 (SDot f :: l) ->
  lit r = Some k -> - 2 ^ 31 <= k < 2 ^ 31 ->
  compile_filter K (ECmp op (EAddr (path (EArrow (EName x) f) l)) r) = inl (Some p) ->
  Z.of_nat (List.length (code p)) < 2 ^ 15 -> (cf_mode K <> MDirect -> Forall (fun i => dest i <> Some 5%nat) (code p)) ->
  returns m p ms (c_rel op ((ce_slot C i + d) mod 2 ^ 64) (k mod 2 ^ 64)).
Proof.
  intros K C m ms args op x i pt t f l d u r k p (HE & HV & Hm & Hk & HA & Hs) Hx Hlk Hp Hoff Hok Hl Hk32 Hcp Hlen Hd fuel Hf.
  pose proof (pend_cmp K C m args Hm Hs op _ r (s64 k) None _ _ p ms (lit_eval K r k Hl)
    (arrow_path K C m args Hm HE HV Hs x i pt t f l d u (s64 k) Hx Hlk Hp Hok Hoff) Hcp Hlen Hd HA Hk fuel Hf) as H.
  rewrite s64_id in H by lia. unfold immv in H. rewrite s32_id in H by lia. exact H.
Qed.
Print Assumptions C10_address_of_path_is_base_plus_offsets.
(** More generally, after any supported chain of pointer hops: `&l` is the address of the object l denotes, which is itself
    not read. *)
Theorem C10_address_of_lvalue : forall K C m ms args op l a t s r k p,
  matches K C m ms args -> csem C (cc2btf (cf_env K)) l = Some (CLoc a t None) ->
  sup K C l = Some s -> pend_of s = true -> (forall t b h, s <> KVal t b h) ->
  lit r = Some k -> - 2 ^ 31 <= k < 2 ^ 31 ->
  compile_filter K (ECmp op (EAddr l) r) = inl (Some p) ->
  Z.of_nat (List.length (code p)) < 2 ^ 15 -> (cf_mode K <> MDirect -> Forall (fun i => dest i <> Some 5%nat) (code p)) ->
  returns m p ms (c_rel op (a mod 2 ^ 64) (k mod 2 ^ 64)).
Proof.
  intros K C m ms args op l a t s r k p (HE & HV & Hm & Hk & HA & Hs) Hsem Hsup Hpk Hnk Hl Hk32 Hcp Hlen Hd fuel Hf.
  pose proof (pend_cmp K C m args Hm Hs op _ r (s64 k) None _ _ p ms (lit_eval K r k Hl)
    (addr_lspec K C m args Hm HE HV Hs l a t s (s64 k) Hsem Hsup Hpk Hnk) Hcp Hlen Hd HA Hk fuel Hf) as H.
  rewrite s64_id in H by lia. unfold immv in H. rewrite s32_id in H by lia. exact H.
Qed.
Print Assumptions C10_address_of_lvalue.
Example C10_demo : forall md, path_off (K md) (TStruct "sk_buff") [SDot "pair"; SIdx "1"] = Some (204, u32) /\
  path_ok (K md) (TStruct "sk_buff") 0 [SDot "pair"; SIdx "1"] /\
  verdict md (ECmp CEq (EAddr (path (EArrow skb "pair") [SIdx "1"])) (ENum "65740")) = Some 1 /\
  csem demo_C (cc2btf demo_env) (arrow skb ["dev"; "ifindex"]) = Some (CLoc 131288 i32 None) /\
  verdict md (ECmp CEq (EAddr (arrow skb ["dev"; "ifindex"])) (ENum "131288")) = Some 1.
Proof.
  intros []; (split; [vm_compute; reflexivity|]; split; [|vm_compute; auto]);
    vm_compute; repeat split; try discriminate; intros H; discriminate H.
Qed.

(** ** C11, positive part: the address of an element is base plus index times element size (C10 with SIdx).
    Refuted as stated: the element itself is never read.  For every pointer parameter x to a w-byte type, `x[n] op k`
    compares the low w bytes of the element's ADDRESS with k. *)
Theorem C11_index_compares_the_address_refuted : forall K C m ms args op x i pt t w txt n r k p,
  matches K C m ms args -> plain_name x = true -> lookup_var (cf_vars K) x 0 = Some (i, pt) -> under pt = TPtr t ->
  parse_unsigned txt = inl n -> 0 <= n -> sizeof (cf_env K) t = Some w -> width w -> n * w < 2 ^ 31 -> lit r = Some k ->
  compile_filter K (ECmp op (EIndex (EName x) (ENum txt)) r) = inl (Some p) ->
  Z.of_nat (List.length (code p)) < 2 ^ 15 -> (cf_mode K <> MDirect -> Forall (fun i => dest i <> Some 5%nat) (code p)) ->
  returns m p ms (c_rel op ((ce_slot C i + n * w) mod 2 ^ (8 * w)) (immediate w k)).
Proof.
  intros K C m ms args op x i pt t w txt n r k p (HE & HV & Hm & Hk & HA & Hs) Hx Hlk Hp Hn Hn0 Hsz Hw Hb Hl Hcp Hlen Hd fuel Hf.
  exact (pend_cmp K C m args Hm Hs op _ r (s64 k) None _ _ p ms (lit_eval K r k Hl)
    (index_lspec K C m args Hm HE HV Hs x i pt t txt n w (s64 k) Hx Hlk Hp Hn Hn0 Hsz Hw Hb) Hcp Hlen Hd HA Hk fuel Hf).
Qed.
Print Assumptions C11_index_compares_the_address_refuted.
Example C11_hypotheses_met : forall md, matches (K md) demo_C demo_m demo_ms 4096 /\ lookup_var (cf_vars (K md)) "words" 0 = Some (5%nat, TPtr u32) /\
  ce_slot demo_C 5 = 65736 /\ rd demo_C (65736 + 1 * 4) 4 = Some 12 /\
  map (verdict md) [ECmp CEq (EIndex (EName "words") (ENum "1")) (ENum "12"); ECmp CEq (EIndex (EName "words") (ENum "1")) (ENum "65740")] = [Some 0; Some 1].
Proof. intros []; (split; [apply demo_matches|vm_compute; auto]). Qed.
(** In particular `skb->pair[1] == 12` and `skb->cb[0] == 7` are true but not matched. *)
Definition pair1 := ECmp CEq (EIndex (EArrow skb "pair") (ENum "1")) (ENum "12").
Definition cb0 := ECmp CEq (EIndex (EArrow skb "cb") (ENum "0")) (ENum "7").
Theorem C11_elements_are_not_read_refuted : forall md, map sem_true [pair1; cb0] = [Some true; Some true] /\ map (verdict md) [pair1; cb0] = [Some 0; Some 0].
Proof. intros []; vm_compute; auto. Qed.
Print Assumptions C11_elements_are_not_read_refuted.
