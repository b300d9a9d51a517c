(** * Proofs about reads, look-ups and listings. *)
From Coq Require Import List Bool String Ascii ZArith Arith Lia.
From Verif Require Import M_Go P_Go M_Kallsyms S_Kallsyms P_Kallsyms P_Kallsyms2 M_Bytes P_Bytes M_Flags P_Flags M_Disasm S_Disasm.
Import ListNotations.
Open Scope list_scope.
Open Scope Z_scope.

(** ** reads *)
Lemma read_mem_some m n : forall a, readable m a (Z.of_nat n) -> exists l, read_mem m n a = Some l /\ List.length l = n /\ holds m a l.
Proof.
  induction n as [|n IH]; intros a H.
  - exists []. cbn. repeat split. intros i Hi. cbn in Hi. lia.
  - destruct (IH (a + 1)) as (l & E & El & Hl).
    { intros i Hi. replace (a + 1 + i) with (a + (1 + i)) by lia. apply H. lia. }
    pose proof (H 0 ltac:(lia)) as H0. rewrite Z.add_0_r in H0. destruct (m a) as [b|] eqn:Eb; [|congruence].
    exists (b :: l). cbn [read_mem]. rewrite Eb, E. split; [reflexivity|]. split; [cbn; lia|].
    intros [|i] Hi; cbn [nth]; [rewrite Z.add_0_r; exact Eb|].
    cbn [List.length] in Hi. rewrite <- (Hl i) by lia. f_equal. lia.
Qed.
Lemma read_mem_none m n : forall a i, 0 <= i < Z.of_nat n -> m (a + i) = None -> read_mem m n a = None.
Proof.
  induction n as [|n IH]; intros a i Hi H; [lia|]. cbn [read_mem].
  destruct (Z.eq_dec i 0) as [->|Hn]; [rewrite Z.add_0_r in H; rewrite H; reflexivity|].
  rewrite (IH (a + 1) (i - 1)); [destruct (m a); reflexivity|lia|]. rewrite <- H. f_equal. lia.
Qed.
Lemma round8_ge n : n <= round8 n.
Proof. unfold round8. pose proof (Z.mul_div_le (n + 7) 8 ltac:(lia)). pose proof (Z.mod_pos_bound (n + 7) 8 ltac:(lia)). pose proof (Z.div_mod (n + 7) 8 ltac:(lia)). lia. Qed.
Lemma round8_le n : round8 n <= n + 7.
Proof. unfold round8. pose proof (Z.mul_div_le (n + 7) 8 ltac:(lia)). lia. Qed.
Lemma round8_le_mul n k : n <= 8 * k -> round8 n <= 8 * k.
Proof. intros H. unfold round8. assert ((n + 7) / 8 < k + 1) by (apply Z.div_lt_upper_bound; lia). lia. Qed.
Lemma size_small n : 0 <= n <= 65528 -> read_size n = Some (round8 n) /\ Z.land (round8 n) 65535 = round8 n.
Proof.
  intros H. pose proof (round8_ge n). pose proof (round8_le_mul n 8191 ltac:(lia)).
  split.
  - rewrite read_size_spec by lia. fold (round8 n). destruct (Z.ltb_spec 65536 (round8 n)); [lia|reflexivity].
  - change 65535 with (Z.ones 16). rewrite Z.land_ones by lia. apply Z.mod_small. cbn. lia.
Qed.
Lemma size_top n : 65528 < n <= 65536 -> read_size n = Some 65536.
Proof.
  intros H. rewrite read_size_spec by lia.
  assert (E : (n + 7) / 8 = 8192) by (symmetry; apply (Z.div_unique (n + 7) 8 8192 (n + 7 - 65536)); lia).
  rewrite E. reflexivity.
Qed.
Lemma read_ok m buff a n : 0 <= n <= 65528 -> readable m a (round8 n) ->
  exists l, fst (read_kernel m buff a n) = Some l /\ Z.of_nat (List.length l) = n /\ holds m a l.
Proof.
  intros Hn Hr. destruct (size_small n Hn) as [E1 E2]. unfold read_kernel. rewrite E1. cbn [fst]. unfold bpf_read. rewrite E2.
  pose proof (round8_ge n) as Hg.
  destruct (read_mem_some m (Z.to_nat (round8 n)) a) as (l & El & Hl & Hh); [rewrite Z2Nat.id by lia; exact Hr|].
  rewrite El. exists (firstn (Z.to_nat n) l). 
  rewrite firstn_app. replace (Z.to_nat n - List.length l)%nat with 0%nat by lia. rewrite firstn_O, app_nil_r.
  split; [reflexivity|]. split; [rewrite firstn_length; lia|].
  intros i Hi. rewrite firstn_length in Hi. rewrite Hh by lia. f_equal.
  rewrite <- (firstn_skipn (Z.to_nat n) l) at 1. apply app_nth1. rewrite firstn_length. lia.
Qed.
Lemma read_too_large m buff a n : 65536 < n < 2 ^ 32 - 7 -> fst (read_kernel m buff a n) = None.
Proof.
  intros H. unfold read_kernel. rewrite read_size_spec by lia. fold (round8 n). pose proof (round8_ge n).
  destruct (Z.ltb_spec 65536 (round8 n)); [reflexivity|lia].
Qed.
Lemma read_stale m buff a n : 65528 < n <= 65536 -> fst (read_kernel m buff a n) = Some (firstn (Z.to_nat n) buff).
Proof.
  intros H. unfold read_kernel. rewrite size_top by lia. cbn [fst]. unfold bpf_read. change (Z.land 65536 65535) with 0.
  change (Z.to_nat 0) with 0%nat. cbn [read_mem app skipn]. reflexivity.
Qed.
(** a long read after a short one shows the memory of the short one *)
Lemma read_stale_other m buff a b n k : 65528 < n <= 65536 -> 0 <= k <= 65528 -> readable m b (round8 k) ->
  exists l r, fst (read_kernel m (snd (read_kernel m buff b k)) a n) = Some (l ++ r) /\ Z.of_nat (List.length l) = k /\ holds m b l.
Proof.
  intros Hn Hk Hr. rewrite read_stale by assumption.
  destruct (size_small k Hk) as [E1 E2]. unfold read_kernel. rewrite E1. cbn [snd]. unfold bpf_read. rewrite E2.
  pose proof (round8_ge k) as Hg. pose proof (round8_le_mul k 8191 ltac:(lia)).
  destruct (read_mem_some m (Z.to_nat (round8 k)) b) as (l & El & Hl & Hh); [rewrite Z2Nat.id by lia; exact Hr|].
  rewrite El. exists (firstn (Z.to_nat k) l). eexists.
  rewrite <- (firstn_skipn (Z.to_nat k) l) at 1. rewrite <- app_assoc, firstn_app.
  rewrite (firstn_all2 (n := Z.to_nat n) (firstn (Z.to_nat k) l)) by (rewrite firstn_length; lia).
  split; [reflexivity|]. split; [rewrite firstn_length; lia|].
  intros i Hi. rewrite firstn_length in Hi. rewrite Hh by lia. f_equal.
  rewrite <- (firstn_skipn (Z.to_nat k) l) at 1. apply app_nth1. rewrite firstn_length. lia.
Qed.
Lemma firstn_repeat {A} (x : A) n k : (n <= k)%nat -> firstn n (repeat x k) = repeat x n.
Proof. revert k; induction n as [|n IH]; intros [|k] H; cbn; [reflexivity|reflexivity|lia|]. f_equal. apply IH. lia. Qed.
Lemma read_zeros m buff a n i : 0 <= n <= 65528 -> 0 <= i < round8 n -> m (a + i) = None ->
  fst (read_kernel m buff a n) = Some (repeat 0 (Z.to_nat n)).
Proof.
  intros Hn Hi H. destruct (size_small n Hn) as [E1 E2]. unfold read_kernel. rewrite E1. cbn [fst]. unfold bpf_read. rewrite E2.
  pose proof (round8_ge n). rewrite (read_mem_none m _ a i); [|lia|exact H].
  rewrite firstn_app, repeat_length. replace (Z.to_nat n - Z.to_nat (round8 n))%nat with 0%nat by lia.
  rewrite firstn_O, app_nil_r, firstn_repeat by lia. reflexivity.
Qed.

(** ** names *)
Lemma hex_under_none s : forall u acc, (exists c, occurs c s /\ hexval c = None /\ c <> "_"%char) -> hex_under s u acc = None.
Proof.
  induction s as [|x s IH]; intros u acc (c & Hc & Hh & Hu); cbn [occurs] in Hc; [contradiction|].
  cbn [hex_under]. destruct Hc as [->|Hc].
  - destruct (Ascii.eqb_spec c "_"); [contradiction|]. rewrite Hh. reflexivity.
  - destruct (Ascii.eqb x "_"); [destruct u; [reflexivity|apply IH; eauto]|].
    destruct (hexval x); [|reflexivity]. destruct (W64 <=? _); [reflexivity|apply IH; eauto].
Qed.
Lemma plain_no_addr n : plain_name n -> parse_addr n = None.
Proof.
  intros (Hp & c & Hc & Hh & Hu). unfold parse_addr.
  destruct (has_prefix "0x" n) eqn:E.
  - exfalso. destruct n as [|c1 [|c2 r]]; cbn [has_prefix] in E; try discriminate; [rewrite andb_false_r in E; discriminate|].
    apply andb_prop in E. destruct E as [E1 E2]. apply andb_prop in E2. destruct E2 as [E2 _].
    apply Ascii.eqb_eq in E1, E2. subst. eapply Hp. reflexivity.
  - unfold parse_0x. destruct n; [cbn in Hc; contradiction|]. apply hex_under_none. eauto.
Qed.
Lemma named ls ks order kmods globs n : new_kallsyms ls = Some ks -> listed ls n -> plain_name n ->
  exists s, first_named (text_syms ls) s /\ snd s = n /\ parse_disasm ks order kmods globs n = At (fst s) n.
Proof.
  intros H Hl Hp. unfold parse_disasm. rewrite (plain_no_addr _ Hp). pose proof (load_inv _ _ H) as I.
  destruct (aget String.eqb n (n2s ks)) as [p|] eqn:E.
  - destruct (pos_named ks (text_syms ls) n p I E) as (e & He & Hen & Hf). unfold find_by_symbol. rewrite E. cbn [entry_pos]. rewrite He.
    exists (kaddr e, kname e). split; [exact Hf|]. split; [exact Hen|]. cbn [fst]. rewrite Hen. reflexivity.
  - exfalso. apply (unlisted ks ls n I) in E. contradiction.
Qed.
(** plain hexadecimal digits *)
Lemma hex_under_go s : forall acc v, parse_hex_go s acc = Some v -> hex_under s false acc = Some v.
Proof.
  induction s as [|c s IH]; intros acc v; cbn [parse_hex_go hex_under]; [auto|].
  destruct (hexval c) as [d|] eqn:Ed; [|discriminate].
  destruct (Ascii.eqb_spec c "_") as [->|]; [cbn in Ed; discriminate|]. destruct (W64 <=? acc * 16 + d); [discriminate|]. apply IH.
Qed.
Lemma parse_0x_hex s v : parse_hex s = Some v -> parse_0x s = Some v.
Proof. unfold parse_hex, parse_0x. destruct s; [discriminate|]. apply hex_under_go. Qed.
Lemma hexdigit_not_x d : 0 <= d < 16 -> hexdigit d <> "x"%char.
Proof.
  intros H E. assert (hexval (hexdigit d) = Some d) as X by (apply hexval_digit; assumption). rewrite E in X. cbn in X. discriminate.
Qed.
Lemma addressed ls ks order kmods globs a n : new_kallsyms ls = Some ks -> 0 <= a < 2 ^ 64 ->
  (n = hex16 a \/ n = String "0" (String "x" (hex16 a))) ->
  (exists s, In s (text_syms ls) /\ fst s <= a) -> (exists s, In s (text_syms ls) /\ a <= fst s) ->
  exists s, last_at (text_syms ls) s /\ fst s <= a /\ (forall s', In s' (text_syms ls) -> fst s' <= a -> fst s' <= fst s) /\
    parse_disasm ks order kmods globs n = At a (snd s).
Proof.
  intros H Ha Hn H1 H2. destruct (find_in_range ls ks a H H1 H2) as (e & Ee & Hl & Hle & Hmax).
  assert (Hpa : parse_addr n = Some a).
  { unfold parse_addr. destruct Hn as [-> | ->].
    - assert (X : has_prefix "0x" (hex16 a) = false).
      { unfold hex16. cbn [hex_fixed]. cbn [has_prefix]. 
        match goal with |- context [Ascii.eqb "x" (hexdigit ?d)] => 
          assert (Y : Ascii.eqb "x" (hexdigit d) = false) by (destruct (Ascii.eqb_spec "x" (hexdigit d)) as [Y|]; [|reflexivity]; exfalso; symmetry in Y; revert Y; apply hexdigit_not_x; apply Z.mod_pos_bound; lia) end.
        rewrite Y. cbn [andb]. apply andb_false_r. }
      rewrite X. apply parse_0x_hex, parse_hex16. exact Ha.
    - cbn [has_prefix Ascii.eqb andb Bool.eqb]. cbn [drop]. apply parse_0x_hex, parse_hex16. exact Ha. }
  exists (kaddr e, kname e). split; [exact Hl|]. split; [exact Hle|]. split; [exact Hmax|].
  unfold parse_disasm. rewrite Hpa, Ee. reflexivity.
Qed.
(** a name that reads as an address below every symbol *)
Lemma hex_name ls ks order globs n a : new_kallsyms ls = Some ks -> text_syms ls <> [] -> parse_addr n = Some a ->
  (forall s, In s (text_syms ls) -> a < fst s) -> parse_disasm ks order (fun _ => None) globs n = Fatal.
Proof.
  intros H Hne Hp Hb. unfold parse_disasm. rewrite Hp. destruct (find_out_of_range ls ks a H Hne (or_introl Hb)) as [-> _]. reflexivity.
Qed.

(** ** listings *)
Section Dec.
  Variable dec : list Z -> Z -> option nat.
  Hypothesis Hdec : sound_decoder dec.
  Lemma tile_cons start off l ls b : l_addr l = start + off -> l_off l = off -> l_bytes l <> [] ->
    lines_tile start (off + Z.of_nat (List.length (l_bytes l))) ls b -> lines_tile start off (l :: ls) (l_bytes l ++ b).
  Proof. intros. cbn [lines_tile]. repeat split; eauto. Qed.
  Lemma dec_bytes b pc sz : dec b pc = Some sz -> firstn sz b <> [] /\ List.length (firstn sz b) = sz.
  Proof.
    intros H. apply Hdec in H. rewrite firstn_length. split; [|lia]. destruct b; [cbn in H; lia|]. destruct sz; [lia|]. discriminate.
  Qed.
  Lemma dump_loop_ok n : forall kaddr b off ls f, (List.length b < n)%nat -> 0 <= kaddr -> 0 <= off -> kaddr + off + Z.of_nat (List.length b) < 2 ^ 64 ->
    dump_loop dec n kaddr b (kaddr + off) = (ls, f) ->
    exists p r, b = p ++ r /\ lines_tile kaddr off ls p /\
      (forall l, In l ls -> if (l_bad l : bool) then l_bytes l = [130] else exists b', dec b' (l_addr l) = Some (List.length (l_bytes l)) /\ firstn (List.length (l_bytes l)) b' = l_bytes l) /\
      (if (f : bool) then (10 < List.length r)%nat /\ dec r (kaddr + off + Z.of_nat (List.length p)) = None /\ hd 0 r <> 130
       else r = [] \/ (List.length r <= 10)%nat /\ dec r (kaddr + off + Z.of_nat (List.length p)) = None).
  Proof.
    induction n as [|n IH]; intros kaddr b off ls f Hn Hk Ho Hw E; [lia|].
    cbn [dump_loop] in E. destruct b as [|b0 b1] eqn:Eb.
    - injection E as <- <-. exists [], []. cbn. repeat split; auto. intros l [].
    - rewrite <- Eb in E, Hn, Hw |- *. destruct (dec b (kaddr + off)) as [sz|] eqn:Ed.
      + pose proof (Hdec _ _ _ Ed) as Hs. destruct (dec_bytes _ _ _ Ed) as [Hne Hlen].
        assert (Eu : u64 (kaddr + off + Z.of_nat sz) = kaddr + (off + Z.of_nat sz)).
        { unfold u64. change W64 with (2 ^ 64). rewrite Z.mod_small by lia. lia. }
        rewrite Eu in E. destruct (dump_loop dec n kaddr (skipn sz b) (kaddr + (off + Z.of_nat sz))) as [ls' f'] eqn:El.
        injection E as <- <-. destruct (IH kaddr (skipn sz b) (off + Z.of_nat sz) ls' f' ltac:(rewrite skipn_length; lia) Hk ltac:(lia) ltac:(rewrite skipn_length; lia) El) as (p & r & Ep & Ht & Hin & Hend).
        exists (firstn sz b ++ p), r. split; [rewrite <- app_assoc, <- Ep; symmetry; apply firstn_skipn|].
        split; [|split].
        * apply (tile_cons kaddr off {| l_addr := kaddr + off; l_off := u64 (kaddr + off - kaddr); l_bytes := firstn sz b; l_bad := false |}); cbn [l_addr l_off l_bytes]; auto.
          -- unfold u64. change W64 with (2 ^ 64). rewrite Z.mod_small; lia.
          -- rewrite Hlen. exact Ht.
        * intros l [<-|Hl]; [|apply Hin; exact Hl]. cbn. exists b. rewrite Hlen. auto.
        * rewrite app_length, Hlen. replace (kaddr + off + Z.of_nat (sz + List.length p)) with (kaddr + (off + Z.of_nat sz) + Z.of_nat (List.length p)) by lia.
          exact Hend.
      + destruct (Nat.leb_spec (List.length b) 10).
        * injection E as <- <-. exists [], b. cbn [lines_tile app]. split; [reflexivity|]. split; [reflexivity|]. split; [intros l []|].
          right. split; [assumption|]. cbn [List.length]. rewrite Z.add_0_r. exact Ed.
        * destruct (Z.eqb_spec b0 130) as [->|Hb0].
          -- assert (Eu : u64 (kaddr + off + 1) = kaddr + (off + 1)).
             { unfold u64. change W64 with (2 ^ 64). rewrite Eb in Hw. cbn [List.length] in Hw. rewrite Z.mod_small by lia. lia. }
             rewrite Eu in E. destruct (dump_loop dec n kaddr b1 (kaddr + (off + 1))) as [ls' f'] eqn:El. injection E as <- <-.
             rewrite Eb in Hn, Hw. cbn [List.length] in Hn, Hw.
             destruct (IH kaddr b1 (off + 1) ls' f' ltac:(lia) Hk ltac:(lia) ltac:(lia) El) as (p & r & Ep & Ht & Hin & Hend).
             exists ([130] ++ p), r. split; [rewrite Eb; cbn [app]; f_equal; exact Ep|]. split; [|split].
             ++ apply (tile_cons kaddr off {| l_addr := kaddr + off; l_off := u64 (kaddr + off - kaddr); l_bytes := [130]; l_bad := true |}); cbn [l_addr l_off l_bytes]; auto.
                ** unfold u64. change W64 with (2 ^ 64). rewrite Z.mod_small; lia.
                ** discriminate.
             ++ intros l [<-|Hl]; [reflexivity|apply Hin; exact Hl].
             ++ replace (kaddr + off + Z.of_nat (List.length ([130] ++ p))) with (kaddr + (off + 1) + Z.of_nat (List.length p)) by (cbn [List.length app]; lia).
                exact Hend.
          -- injection E as <- <-. exists [], b. cbn [lines_tile app]. split; [reflexivity|]. split; [reflexivity|]. split; [intros l []|].
             split; [lia|]. cbn [List.length]. rewrite Z.add_0_r. split; [exact Ed|]. rewrite Eb. exact Hb0.
  Qed.
  Lemma dump_ok kaddr data ls f : 0 <= kaddr -> kaddr + Z.of_nat (List.length data) < 2 ^ 64 -> dump dec kaddr data = (ls, f) ->
    exists p r, data = p ++ r /\ lines_tile kaddr 0 ls p /\
      (forall l, In l ls -> if (l_bad l : bool) then l_bytes l = [130] else exists b', dec b' (l_addr l) = Some (List.length (l_bytes l)) /\ firstn (List.length (l_bytes l)) b' = l_bytes l) /\
      (if (f : bool) then (10 < List.length r)%nat /\ dec r (kaddr + Z.of_nat (List.length p)) = None /\ hd 0 r <> 130
       else r = [] \/ (List.length r <= 10)%nat /\ dec r (kaddr + Z.of_nat (List.length p)) = None).
  Proof.
    intros Hk Hw E. unfold dump in E. rewrite <- (Z.add_0_r kaddr) in E at 2.
    destruct (dump_loop_ok (S (List.length data)) kaddr data 0 ls f ltac:(lia) Hk ltac:(lia) ltac:(lia) E) as (p & r & H). rewrite Z.add_0_r in H. exists p, r. exact H.
  Qed.
  (** functions of a program *)
  Lemma fn_loop_ok n : forall ksym b pc ls, (List.length b < n)%nat -> 0 <= ksym -> 0 <= pc -> ksym + pc + Z.of_nat (List.length b) < 2 ^ 64 ->
    fn_loop dec n ksym b pc = Some ls -> lines_tile ksym pc ls b.
  Proof.
    induction n as [|n IH]; intros ksym b pc ls Hn Hk Hp Hw E; [lia|].
    cbn [fn_loop] in E. destruct b as [|b0 b1] eqn:Eb; [injection E as <-; reflexivity|]. rewrite <- Eb in *.
    assert (Eu : u64 (ksym + pc) = ksym + pc) by (unfold u64; change W64 with (2 ^ 64); rewrite Z.mod_small; lia).
    rewrite Eu in E. destruct (dec b (ksym + pc)) as [sz|] eqn:Ed; [|discriminate].
    pose proof (Hdec _ _ _ Ed) as Hs. destruct (dec_bytes _ _ _ Ed) as [Hne Hlen].
    destruct (fn_loop dec n ksym (skipn sz b) (pc + Z.of_nat sz)) as [r|] eqn:El; [|discriminate]. injection E as <-.
    rewrite <- (firstn_skipn sz b) at 2.
    apply (tile_cons ksym pc {| l_addr := ksym + pc; l_off := pc; l_bytes := firstn sz b; l_bad := false |}); cbn [l_addr l_off l_bytes]; auto.
    rewrite Hlen. apply IH; [rewrite skipn_length; lia|exact Hk|lia|rewrite skipn_length; lia|exact El].
  Qed.
  Lemma skipn_plus {A} k : forall n (l : list A), skipn n (skipn k l) = skipn (k + n) l.
  Proof. induction k as [|k IH]; intros n [|x l]; cbn; auto using skipn_nil. Qed.
  Lemma dump_prog_ok all want fns : forall insns out,
    (forall f, In f fns -> 0 <= snd (fst f) /\ snd (fst f) + Z.of_nat (fn_len f) < 2 ^ 64) ->
    dump_prog dec all want fns insns = Some out ->
    (fn_start fns <= List.length insns)%nat /\
    map fst out = map (fun f => fst (fst f)) (filter (fun f => all || String.eqb (fst (fst f)) want) fns) /\
    (forall k f, nth_error (filter (fun f => all || String.eqb (fst (fst f)) want) fns) k = Some f ->
       exists pre post ls, fns = pre ++ f :: post /\ nth_error out k = Some (fst (fst f), ls) /\
         lines_tile (snd (fst f)) 0 ls (firstn (fn_len f) (skipn (fn_start pre) insns))).
  Proof.
    induction fns as [|[[name ksym] len] fns IH]; intros insns out Hf E; cbn [dump_prog] in E.
    - injection E as <-. cbn. repeat split; [lia|]. intros [|k] f Hk; cbn in Hk; discriminate.
    - destruct (Nat.ltb_spec (List.length insns) len); [discriminate|].
      assert (Hf' : forall f, In f fns -> 0 <= snd (fst f) /\ snd (fst f) + Z.of_nat (fn_len f) < 2 ^ 64) by (intros f Hi; apply Hf; right; exact Hi).
      destruct (Hf (name, ksym, len) (or_introl eq_refl)) as [Hk Hw]. cbn [fst snd fn_len] in Hk, Hw.
      unfold fn_start. cbn [filter map fst fold_right]. fold (fn_start fns). change (fn_len (name, ksym, len)) with len.
      destruct (all || String.eqb name want) eqn:Ew.
      + destruct (fn_loop dec (S len) ksym (firstn len insns) 0) as [ls|] eqn:El; [|discriminate].
        destruct (dump_prog dec all want fns (skipn len insns)) as [r|] eqn:Er; [|discriminate]. injection E as <-.
        destruct (IH _ _ Hf' Er) as (H1 & H2 & H3). rewrite skipn_length in H1.
        split; [lia|]. split; [cbn [map fst]; f_equal; exact H2|].
        intros [|k] f Hn; cbn [nth_error] in Hn.
        * injection Hn as <-. exists [], fns, ls. split; [reflexivity|]. split; [reflexivity|]. cbn [fst snd fn_len fn_start map fold_right skipn].
          apply fn_loop_ok with (n := S len); [rewrite firstn_length; lia|exact Hk|lia|rewrite firstn_length; lia|exact El].
        * destruct (H3 k f Hn) as (pre & post & ls' & Efn & Eo & Ht). exists ((name, ksym, len) :: pre), post, ls'.
          split; [rewrite Efn; reflexivity|]. split; [exact Eo|].
          unfold fn_start. cbn [map fold_right]. fold (fn_start pre). change (fn_len (name, ksym, len)) with len.
          rewrite <- skipn_plus. exact Ht.
      + destruct (IH _ _ Hf' E) as (H1 & H2 & H3). rewrite skipn_length in H1. split; [lia|]. split; [exact H2|].
        intros k f Hn. destruct (H3 k f Hn) as (pre & post & ls' & Efn & Eo & Ht). exists ((name, ksym, len) :: pre), post, ls'.
        split; [rewrite Efn; reflexivity|]. split; [exact Eo|].
        unfold fn_start. cbn [map fold_right]. fold (fn_start pre). change (fn_len (name, ksym, len)) with len.
        rewrite <- skipn_plus. exact Ht.
  Qed.

  (** ** instructions to trace *)
  Lemma decode_all_ok n : forall b pc l, (List.length b < n)%nat -> 0 <= pc -> pc + Z.of_nat (List.length b) < 2 ^ 64 -> Decoded dec b pc l -> decode_all dec n b pc = l.
  Proof.
    induction n as [|n IH]; intros b pc l Hn Hp Hw D; [lia|]. cbn [decode_all]. inversion D; subst.
    - destruct b; [reflexivity|]. destruct H as [H|H]; [discriminate|]. rewrite H. reflexivity.
    - destruct b as [|b0 b1] eqn:Eb; [congruence|]. rewrite <- Eb in *. rewrite H0. f_equal.
      pose proof (Hdec _ _ _ H0). unfold u64. change W64 with (2 ^ 64). rewrite Z.mod_small by lia. apply IH; [rewrite skipn_length; lia|lia|rewrite skipn_length; lia|exact H1].
  Qed.
  Lemma decoded_addrs b pc l : Decoded dec b pc l -> NoDup (map fst l) /\ forall i, In i l -> pc <= fst i < pc + Z.of_nat (List.length b).
  Proof.
    induction 1 as [b pc H|b pc sz l Hb Hd D [IH1 IH2]]; [split; [constructor|intros i []]|].
    pose proof (Hdec _ _ _ Hd) as Hs. split.
    - cbn [map fst]. constructor; [|exact IH1]. intros X. apply in_map_iff in X. destruct X as (i & E & Hi). apply IH2 in Hi. lia.
    - intros i [<-|Hi]; [cbn [fst]; lia|]. apply IH2 in Hi. rewrite skipn_length in Hi. lia.
  Qed.
  Definition ret1 (b : list Z) : bool := match b with [195] => true | _ => false end.
  Lemma ret1_iff b : ret1 b = true <-> b = [195].
  Proof.
    split; [|intros ->; reflexivity]. unfold ret1. destruct b as [|x [|y b]]; try discriminate.
    - destruct x as [|p|p]; try discriminate. 
      repeat (destruct p as [p|p|]; try discriminate). reflexivity.
    - destruct x as [|p|p]; try discriminate. repeat (destruct p as [p|p|]; try discriminate).
  Qed.
  Definition put_insn (kaddr : Z) (m : list (Z * finsn)) (i : Z * list Z) : list (Z * finsn) :=
    if ret1 (snd i) then m else aput Z.eqb (fst i) {| fi_off := u64 (fst i - kaddr); fi_fnip := kaddr |} m.
  Lemma put_insns kaddr l : forall m, NoDup (map fst l) -> forall a x,
    aget Z.eqb a (fold_left (put_insn kaddr) l m) = Some x <->
    (exists b, In (a, b) l /\ b <> [195] /\ x = {| fi_off := u64 (a - kaddr); fi_fnip := kaddr |}) \/
    ((forall b, In (a, b) l -> b = [195]) /\ aget Z.eqb a m = Some x).
  Proof.
    induction l as [|[a1 b1] l IH]; intros m Hnd a x; cbn [fold_left].
    - split; [intros H; right; split; [intros b []|exact H]|]. intros [(b & [] & _)|[_ H]]; exact H.
    - inversion Hnd as [|? ? Hni Hnd']; subst. rewrite IH by exact Hnd'. unfold put_insn. cbn [fst snd].
      assert (Hno : forall b, ~ In (a1, b) l) by (intros b Hb; apply Hni; change a1 with (fst (a1, b)); apply in_map; exact Hb).
      split.
      + intros [(b & Hb & Hne & ->)|[Hall Hm]]; [left; exists b; split; [right; exact Hb|auto]|].
        destruct (ret1 b1) eqn:Er.
        * right. split; [|exact Hm]. intros b [Eb|Hb]; [injection Eb as -> ->; apply ret1_iff; exact Er|apply Hall; exact Hb].
        * destruct (Z.eq_dec a a1) as [->|Hn].
          -- rewrite (aget_aput _ Zeqb_ok), Z.eqb_refl in Hm. injection Hm as <-. left. exists b1. split; [left; reflexivity|]. split; [|reflexivity].
             intros X. apply ret1_iff in X. congruence.
          -- rewrite (aget_aput _ Zeqb_ok) in Hm. destruct (Z.eqb_spec a a1); [contradiction|].
             right. split; [|exact Hm]. intros b [Eb|Hb]; [injection Eb as E1 E2; congruence|apply Hall; exact Hb].
      + intros [(b & [Eb|Hb] & Hne & ->)|[Hall Hm]].
        * injection Eb as -> ->. right. split; [intros b' Hb'; destruct (Hno b' Hb')|].
          destruct (ret1 b) eqn:Er; [apply ret1_iff in Er; contradiction|]. rewrite (aget_aput _ Zeqb_ok), Z.eqb_refl. reflexivity.
        * left. exists b. auto.
        * right. split; [intros b Hb; apply Hall; right; exact Hb|].
          destruct (ret1 b1) eqn:Er; [exact Hm|]. rewrite (aget_aput _ Zeqb_ok). destruct (Z.eqb_spec a a1) as [->|]; [|exact Hm].
          exfalso. assert (b1 = [195]) by (apply Hall; left; reflexivity). apply ret1_iff in H. congruence.
  Qed.
  Lemma NoDup_skipn {A} n : forall l : list A, NoDup l -> NoDup (skipn n l).
  Proof. induction n as [|n IH]; intros [|x l] H; cbn; auto. inversion H; subst. apply IH. assumption. Qed.
  Lemma NoDup_firstn {A} n : forall l : list A, NoDup l -> NoDup (firstn n l).
  Proof.
    induction n as [|n IH]; intros [|x l] H; cbn; auto using NoDup_nil. inversion H; subst. constructor; [|apply IH; assumption].
    intros X. apply H2. rewrite <- (firstn_skipn n l). apply in_or_app. left. exact X.
  Qed.
  Lemma insns_ok cnt kaddr data m l : 0 <= kaddr -> kaddr + Z.of_nat (List.length data) < 2 ^ 64 ->
    Decoded dec (trim_tail data) kaddr l -> (4 <= List.length l)%nat ->
    exists m', parse_insns dec cnt kaddr data m = IOk m' /\ forall a x,
      aget Z.eqb a m' = Some x <->
      (exists b, In (a, b) (picked cnt l) /\ b <> [195] /\ x = {| fi_off := a - kaddr; fi_fnip := kaddr |}) \/
      ((forall b, In (a, b) (picked cnt l) -> b = [195]) /\ aget Z.eqb a m = Some x).
  Proof.
    intros Hk Hw D Hl. unfold parse_insns.
    assert (Hlen : (List.length (trim_tail data) <= List.length data)%nat) by (unfold trim_tail; rewrite firstn_length; lia).
    rewrite (decode_all_ok (S (List.length (trim_tail data))) (trim_tail data) kaddr l ltac:(lia) Hk ltac:(lia) D).
    destruct (decoded_addrs _ _ _ D) as [Hnd Hr].
    assert (Epick : (if negb (cnt =? 0)%nat && (cnt <? List.length (skipn 4 l))%nat then firstn cnt (skipn 4 l) else skipn 4 l) = picked cnt l).
    { unfold picked. destruct (Nat.eqb_spec cnt 0) as [->|]; cbn [negb andb]; [reflexivity|].
      destruct (Nat.ltb_spec cnt (List.length (skipn 4 l))); [reflexivity|]. symmetry. apply firstn_all2. lia. }
    destruct l as [|i0 l'] eqn:El; [cbn in Hl; lia|]. rewrite <- El in *.
    destruct (Nat.ltb_spec (List.length l) 4); [lia|]. cbv zeta. rewrite Epick.
    eexists. split; [reflexivity|]. intros a x.
    change (fold_left _ (picked cnt l) m) with (fold_left (put_insn kaddr) (picked cnt l) m).
    assert (Hin : forall i, In i (picked cnt l) -> In i l).
    { intros i Hi. assert (Hs : forall i, In i (skipn 4 l) -> In i l) by (intros j Hj; rewrite <- (firstn_skipn 4 l); apply in_or_app; right; exact Hj).
      unfold picked in Hi. destruct (cnt =? 0)%nat; apply Hs; [exact Hi|]. rewrite <- (firstn_skipn cnt (skipn 4 l)). apply in_or_app. left. exact Hi. }
    rewrite put_insns.
    - assert (Heq : forall b, In (a, b) (picked cnt l) -> u64 (a - kaddr) = a - kaddr).
      { intros b Hb. apply Hin, Hr in Hb. cbn [fst] in Hb. unfold u64. change W64 with (2 ^ 64). apply Z.mod_small. lia. }
      split; (intros [(b & Hb & Hne & ->)|H']; [left; exists b; rewrite (Heq b Hb) in *; auto|right; exact H']).
    - unfold picked. destruct (cnt =? 0)%nat; [|rewrite <- firstn_map; apply NoDup_firstn]; rewrite <- skipn_map; apply NoDup_skipn; exact Hnd.
  Qed.
  Lemma insns_few cnt kaddr data m l : 0 <= kaddr -> kaddr + Z.of_nat (List.length data) < 2 ^ 64 ->
    Decoded dec (trim_tail data) kaddr l -> (1 <= List.length l < 4)%nat -> parse_insns dec cnt kaddr data m = IPanic.
  Proof.
    intros Hk Hw D Hl. unfold parse_insns.
    assert (Hlen : (List.length (trim_tail data) <= List.length data)%nat) by (unfold trim_tail; rewrite firstn_length; lia).
    rewrite (decode_all_ok (S (List.length (trim_tail data))) (trim_tail data) kaddr l ltac:(lia) Hk ltac:(lia) D).
    destruct l as [|i0 l'] eqn:El; [cbn in Hl; lia|]. rewrite <- El in *.
    destruct (Nat.ltb_spec (List.length l) 4); [reflexivity|lia].
  Qed.
  Lemma decode_all_Decoded : forall n b pc, (List.length b < n)%nat -> 0 <= pc -> pc + Z.of_nat (List.length b) < 2 ^ 64 -> Decoded dec b pc (decode_all dec n b pc).
  Proof.
    induction n as [|n IH]; intros b pc Hn Hp Hw; [lia|]. cbn [decode_all].
    destruct b as [|b0 b1] eqn:Eb; [constructor; auto|]. rewrite <- Eb in *. destruct (dec b pc) as [sz|] eqn:Ed; [|constructor; auto].
    pose proof (Hdec _ _ _ Ed). apply DIns with (sz := sz); [subst; discriminate|exact Ed|].
    unfold u64. change W64 with (2 ^ 64). rewrite Z.mod_small by lia. apply IH; [rewrite skipn_length; lia|lia|rewrite skipn_length; lia].
  Qed.
  (** nothing from the 4097th byte on *)
  Lemma insns_4096 ls ks cnt kaddr data m : new_kallsyms ls = Some ks -> text_syms ls <> [] -> (forall s, In s (text_syms ls) -> 0 <= fst s < 2 ^ 64) ->
    0 <= kaddr -> kaddr + 4096 < 2 ^ 64 ->
    guess_bytes ks kaddr 0 = Some (Z.of_nat (List.length data)) -> forall m', parse_insns dec cnt kaddr data m = IOk m' ->
    forall a, kaddr + 4096 <= a -> aget Z.eqb a m' = aget Z.eqb a m.
  Proof.
    intros H Hne Hr Hk Hw Hg m' E a Ha. destruct (guess_spec ls ks kaddr H Hne ltac:(lia) Hr) as (n & En & Hn & _).
    assert (n = Z.of_nat (List.length data)) by congruence. subst n. unfold parse_insns in E.
    set (d := trim_tail data) in *.
    assert (Hlen : (List.length d <= List.length data)%nat) by (unfold d, trim_tail; rewrite firstn_length; lia).
    pose proof decode_all_Decoded as D.
    specialize (D (S (List.length d)) d kaddr ltac:(lia) Hk ltac:(lia)).
    destruct (decode_all dec (S (List.length d)) d kaddr) as [|i0 l] eqn:El; [discriminate|].
    destruct (Nat.le_gt_cases 4 (List.length (i0 :: l))) as [H4|H4].
    - destruct (insns_ok cnt kaddr data m (i0 :: l) Hk ltac:(lia) D H4) as (m'' & E' & Hget).
      assert (m'' = m').
      { unfold parse_insns in E'. fold d in E'. rewrite El in E'. congruence. }
      subst m''. assert (Hno : forall b, ~ In (a, b) (picked cnt (i0 :: l))).
      { intros b Hb. assert (X : In (a, b) (i0 :: l)).
        { assert (Hs : forall i, In i (skipn 4 (i0 :: l)) -> In i (i0 :: l)) by (intros j Hj; rewrite <- (firstn_skipn 4 (i0 :: l)); apply in_or_app; right; exact Hj).
          unfold picked in Hb. destruct (cnt =? 0)%nat; apply Hs; [exact Hb|]. rewrite <- (firstn_skipn cnt (skipn 4 (i0 :: l))). apply in_or_app. left. exact Hb. }
        apply (proj2 (decoded_addrs _ _ _ D)) in X. cbn [fst] in X. lia. }
      destruct (aget Z.eqb a m') as [x|] eqn:Ex.
      + apply Hget in Ex. destruct Ex as [(b & Hb & _)|[_ Ex]]; [destruct (Hno b Hb)|symmetry; exact Ex].
      + destruct (aget Z.eqb a m) as [x|] eqn:Ey; [|reflexivity]. exfalso.
        assert (X : aget Z.eqb a m' = Some x) by (apply Hget; right; split; [intros b Hb; destruct (Hno b Hb)|exact Ey]). congruence.
    - destruct (Nat.ltb_spec (List.length (i0 :: l)) 4); [discriminate|lia].
  Qed.
End Dec.
(** ** the buffer of the reader *)
Lemma read_mem_len m n : forall a l, read_mem m n a = Some l -> List.length l = n.
Proof.
  induction n as [|n IH]; intros a l H; cbn [read_mem] in H; [injection H as <-; reflexivity|].
  destruct (m a); [|discriminate]. destruct (read_mem m n (a + 1)) as [l'|] eqn:E; [|discriminate]. injection H as <-. cbn [List.length]. f_equal. exact (IH _ _ E).
Qed.
Lemma bpf_read_len m buff a n : Z.of_nat (List.length buff) = 65536 -> Z.of_nat (List.length (bpf_read m buff a n)) = 65536.
Proof.
  intros H. unfold bpf_read. cbv zeta. change 65535 with (Z.ones 16). rewrite Z.land_ones by lia. change (2 ^ 16) with 65536.
  pose proof (Z.mod_pos_bound n 65536 ltac:(lia)) as B. set (k := Z.to_nat (n mod 65536)). assert (Hk : Z.of_nat k = n mod 65536) by (unfold k; lia). clearbody k.
  rewrite app_length, skipn_length. destruct (read_mem m k a) as [l|] eqn:E; [rewrite (read_mem_len _ _ _ _ E)|rewrite repeat_length]; lia.
Qed.
Lemma reads_len m rs : forall buff, Z.of_nat (List.length buff) = 65536 -> Z.of_nat (List.length (reads m buff rs)) = 65536.
Proof.
  induction rs as [|[a n] rs IH]; intros buff H; [exact H|]. cbn [reads]. apply IH. unfold read_kernel.
  destruct (read_size n); [cbn [snd]; apply bpf_read_len; exact H|exact H].
Qed.
Lemma buffer_kept m rs : Z.of_nat (List.length (reads m buff0 rs)) = 65536 /\
  forall a n l, 0 <= n < 2 ^ 32 - 7 -> fst (read_kernel m (reads m buff0 rs) a n) = Some l -> Z.of_nat (List.length l) = n.
Proof.
  assert (H : Z.of_nat (List.length (reads m buff0 rs)) = 65536) by (apply reads_len; unfold buff0; rewrite repeat_length; lia).
  split; [exact H|]. intros a n l Hn Hl. destruct (Z_lt_le_dec 65536 n) as [Hb|Hb]; [rewrite read_too_large in Hl by lia; discriminate|].
  unfold read_kernel in Hl. destruct (read_size n) as [rs'|]; [|discriminate]. cbn [fst] in Hl. injection Hl as <-.
  pose proof (bpf_read_len m _ a rs' H). rewrite firstn_length. lia.
Qed.
