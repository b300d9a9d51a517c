(** * Proofs about the cache file *)
From Coq Require Import List Bool ZArith Lia.
From Verif Require Import M_Go P_Go M_Cache S_Cache.
Import ListNotations.

Lemma name_eqb_spec a b : reflect (a = b) (name_eqb a b).
Proof.
  destruct a as [|n], b as [|m]; cbn [name_eqb]; try (constructor; congruence).
  destruct (Nat.eqb_spec n m); constructor; congruence.
Qed.
Lemma aget_unlink n m (d : list (name * nat)) : aget name_eqb n (unlink m d) = if name_eqb n m then None else aget name_eqb n d.
Proof.
  induction d as [|[k v] d IH]; cbn [unlink filter aget fst].
  - destruct (name_eqb n m); reflexivity.
  - unfold unlink in *. destruct (name_eqb_spec m k) as [E|Hmk]; cbn [negb aget]; rewrite IH.
    + subst k. destruct (name_eqb n m); reflexivity.
    + destruct (name_eqb_spec n m), (name_eqb_spec n k); try reflexivity; congruence.
Qed.
Lemma aget_put n m (v : nat) (d : list (name * nat)) : aget name_eqb n (aput name_eqb m v d) = if name_eqb n m then Some v else aget name_eqb n d.
Proof.
  induction d as [|[k w] d IH]; cbn [aput aget]; [reflexivity|].
  destruct (name_eqb_spec m k) as [E|Hmk]; cbn [aget].
  - subst k. destruct (name_eqb n m); reflexivity.
  - rewrite IH. destruct (name_eqb_spec n m), (name_eqb_spec n k); try reflexivity; congruence.
Qed.
Lemma nth_upd {A} (l : list A) i f j : nth_error (upd l i f) j = if Nat.eqb i j then option_map f (nth_error l j) else nth_error l j.
Proof.
  revert i j. induction l as [|x l IH]; intros i j; cbn [upd].
  - destruct j; cbn; destruct (Nat.eqb i _); reflexivity.
  - destruct i as [|i], j as [|j]; cbn [upd nth_error Nat.eqb]; try reflexivity. apply IH.
Qed.
Lemma length_upd {A} (l : list A) i f : List.length (upd l i f) = List.length l.
Proof. revert i. induction l as [|x l IH]; intros [|i]; cbn; auto. Qed.
Lemma nth_mapi {A} (f : nat -> A -> A) l : forall i j, nth_error (mapi f i l) j = option_map (f (i + j)%nat) (nth_error l j).
Proof.
  induction l as [|x l IH]; intros i j; cbn [mapi]; [destruct j; reflexivity|]. destruct j as [|j]; cbn [nth_error option_map].
  - rewrite Nat.add_0_r. reflexivity.
  - rewrite IH. replace (S i + j)%nat with (i + S j)%nat by lia. reflexivity.
Qed.
Lemma length_mapi {A} (f : nat -> A -> A) l : forall i, List.length (mapi f i l) = List.length l.
Proof. induction l; intros i; cbn; auto. Qed.

Section Inv.
  Variable enc : cache -> list Z.
  Variable dec : list Z -> option cache.

  Definition tmp_of (pr : proc) : option nat := match p_phase pr with Writing n _ _ | Closed n _ | Cleanup n => Some n | _ => None end.
  Definition file_of (pr : proc) : option (nat * nat * list Z) := match p_phase pr with Writing n i r => Some (n, i, r) | Closed n i => Some (n, i, []) | _ => None end.
  Record Inv (V : cache -> Prop) (used : list nat) (s : state) : Prop := {
    i_target : forall i, lookup s Target = Some i -> exists nd c, nth_error (s_nodes s) i = Some nd /\ n_data nd = enc c /\ V c;
    i_file : forall p pr n i r, nth_error (s_procs s) p = Some pr -> file_of pr = Some (n, i, r) ->
      lookup s (Tmp n) = Some i /\ lookup s Target <> Some i /\ V (p_cache pr) /\ exists nd, nth_error (s_nodes s) i = Some nd /\ n_data nd ++ r = enc (p_cache pr);
    i_used : forall p pr n, nth_error (s_procs s) p = Some pr -> tmp_of pr = Some n -> In n used;
    i_tmps : forall p q pr qr n, nth_error (s_procs s) p = Some pr -> nth_error (s_procs s) q = Some qr -> tmp_of pr = Some n -> tmp_of qr = Some n -> p = q;
    i_inos : forall p q pr qr n m i r r', nth_error (s_procs s) p = Some pr -> nth_error (s_procs s) q = Some qr -> file_of pr = Some (n, i, r) -> file_of qr = Some (m, i, r') -> p = q;
    i_bound : forall n i, lookup s n = Some i -> (i < List.length (s_nodes s))%nat }.

  Lemma file_tmp pr n i r : file_of pr = Some (n, i, r) -> tmp_of pr = Some n.
  Proof. unfold file_of, tmp_of. destruct (p_phase pr); congruence. Qed.

  Lemma Inv_mono (V V' : cache -> Prop) u u' s : (forall c, V c -> V' c) -> (forall n, In n u -> In n u') -> Inv V u s -> Inv V' u' s.
  Proof.
    intros HV Hu [H1 H2 H3 H4 H5 H6]. constructor; auto.
    - intros i Hi. destruct (H1 i Hi) as (nd & c & A & B & C). exists nd, c. auto.
    - intros p pr n i r Hp Hf. destruct (H2 p pr n i r Hp Hf) as (A & B & C & D). auto.
    - intros p pr n Hp Hn. apply Hu. exact (H3 p pr n Hp Hn).
  Qed.
  (** a process that only leaves its file alone *)
  Lemma Inv_quiet V u s p pr' : Inv V u s -> file_of pr' = None ->
    (forall pr, nth_error (s_procs s) p = Some pr -> forall n, tmp_of pr' = Some n -> tmp_of pr = Some n) ->
    Inv V u (set_proc s p pr').
  Proof.
    intros [H1 H2 H3 H4 H5 H6] Hf Ht.
    assert (NP : forall q qr, nth_error (upd (s_procs s) p (fun _ => pr')) q = Some qr -> exists o, nth_error (s_procs s) q = Some o /\ ((q = p /\ qr = pr') \/ (q <> p /\ qr = o))).
    { intros q qr Hq. rewrite nth_upd in Hq. destruct (Nat.eqb_spec p q) as [E|Hne]; [|exists qr; auto]. subst q. destruct (nth_error (s_procs s) p) as [o|]; cbn in Hq; [|discriminate]. injection Hq as <-. exists o. auto. }
    constructor; cbn [set_proc s_procs s_nodes s_dir]; auto.
    - intros q qr n i r Hq Hqf. rewrite nth_upd in Hq. destruct (Nat.eqb_spec p q) as [->|Hne].
      + destruct (nth_error (s_procs s) q); cbn in Hq; [|discriminate]. injection Hq as <-. congruence.
      + exact (H2 q qr n i r Hq Hqf).
    - intros q qr n Hq Hn. rewrite nth_upd in Hq. destruct (Nat.eqb_spec p q) as [->|Hne].
      + destruct (nth_error (s_procs s) q) as [o|] eqn:E; cbn in Hq; [|discriminate]. injection Hq as <-. exact (H3 q o n E (Ht o eq_refl n Hn)).
      + exact (H3 q qr n Hq Hn).
    - intros a b ar br n Ha Hb Han Hbn. destruct (NP a ar Ha) as (o & Ho & [[E ->]|[E ->]]); destruct (NP b br Hb) as (o' & Ho' & [[E' ->]|[E' ->]]); subst; auto.
      + apply (H4 _ _ o o' n Ho Ho'); [apply Ht; assumption|exact Hbn].
      + apply (H4 _ _ o o' n Ho Ho'); [exact Han|apply Ht; assumption].
      + exact (H4 _ _ o o' n Ho Ho' Han Hbn).
    - intros a b ar br n m i r r' Ha Hb Haf Hbf. destruct (NP a ar Ha) as (o & Ho & [[E ->]|[E ->]]); destruct (NP b br Hb) as (o' & Ho' & [[E' ->]|[E' ->]]); subst; auto; try congruence.
      exact (H5 _ _ o o' n m i r r' Ho Ho' Haf Hbf).
  Qed.
  (** taking the name away that only p uses, once p is done with its file *)
  Lemma Inv_unlink V u s p n pr : Inv V u s -> nth_error (s_procs s) p = Some pr -> tmp_of pr = Some n -> file_of pr = None ->
    Inv V u {| s_nodes := s_nodes s; s_dir := unlink (Tmp n) (s_dir s); s_procs := s_procs s |}.
  Proof.
    intros [H1 H2 H3 H4 H5 H6] Hp Hn Hf.
    assert (L : forall x, lookup {| s_nodes := s_nodes s; s_dir := unlink (Tmp n) (s_dir s); s_procs := s_procs s |} x = if name_eqb x (Tmp n) then None else lookup s x)
      by (intros x; unfold lookup; cbn [s_dir]; apply aget_unlink).
    constructor; cbn [s_procs s_nodes]; auto.
    - intros i Hi. rewrite L in Hi. cbn in Hi. exact (H1 i Hi).
    - intros q qr m i r Hq Hqf. destruct (H2 q qr m i r Hq Hqf) as (A & B & C & D). rewrite !L. cbn [name_eqb].
      destruct (Nat.eqb_spec m n) as [->|Hne]; [|auto]. exfalso.
      assert (p = q) by (apply (H4 p q pr qr n Hp Hq Hn (file_tmp _ _ _ _ Hqf))). subst q. congruence.
    - intros x i Hi. rewrite L in Hi. destruct (name_eqb x (Tmp n)); [discriminate|]. exact (H6 x i Hi).
  Qed.

  Definition ver (s : state) (ev : event) (c : cache) : Prop :=
    match ev with ECreate p _ => exists pr, nth_error (s_procs s) p = Some pr /\ c = p_cache pr | _ => False end.
  Definition newtmp (ev : event) : list nat := match ev with ECreate _ n => [n] | _ => [] end.

  Lemma step_inv V u s ev s' : Inv V u s -> (forall n, In n (newtmp ev) -> ~ In n u) ->
    (forall k, ev = EPower k -> on_disk s) -> step enc dec s ev = Some s' -> Inv (fun c => V c \/ ver s ev c) (newtmp ev ++ u) s'.
  Proof.
    intros HI Hu Hpow Hs. destruct ev; cbn [step newtmp app] in *.
    - (* start *) destruct (load dec s) as [c|] eqn:El; [|discriminate]. injection Hs as <-. apply (Inv_mono V _ u); [auto|auto|].
      destruct HI as [H1 H2 H3 H4 H5 H6].
      assert (N : forall q qr, nth_error (s_procs s ++ [{| p_cache := c; p_new := 0; p_phase := Idle |}]) q = Some qr -> nth_error (s_procs s) q = Some qr \/ p_phase qr = Idle).
      { intros q qr Hq. destruct (Nat.lt_ge_cases q (List.length (s_procs s))) as [Hl|Hl]; [rewrite nth_error_app1 in Hq by exact Hl; auto|].
        rewrite nth_error_app2 in Hq by exact Hl. destruct (q - List.length (s_procs s))%nat as [|k]; cbn in Hq; [|destruct k; discriminate]. injection Hq as <-. auto. }
      assert (Nf : forall qr, p_phase qr = Idle -> file_of qr = None /\ tmp_of qr = None) by (intros qr E; unfold file_of, tmp_of; rewrite E; auto).
      constructor; cbn [s_procs s_nodes]; auto.
      + intros q qr n i r Hq Hf. destruct (N q qr Hq) as [Hq'|E]; [exact (H2 q qr n i r Hq' Hf)|destruct (Nf qr E); congruence].
      + intros q qr n Hq Hf. destruct (N q qr Hq) as [Hq'|E]; [exact (H3 q qr n Hq' Hf)|destruct (Nf qr E); congruence].
      + intros a b ar br n Ha Hb Han Hbn. destruct (N a ar Ha) as [Ha'|E]; [|destruct (Nf ar E); congruence]. destruct (N b br Hb) as [Hb'|E]; [|destruct (Nf br E); congruence].
        exact (H4 a b ar br n Ha' Hb' Han Hbn).
      + intros a b ar br n m i r r' Ha Hb Haf Hbf. destruct (N a ar Ha) as [Ha'|E]; [|destruct (Nf ar E); congruence]. destruct (N b br Hb) as [Hb'|E]; [|destruct (Nf br E); congruence].
        exact (H5 a b ar br n m i r r' Ha' Hb' Haf Hbf).
    - (* add *) destruct (nth_error (s_procs s) p) as [pr|] eqn:Ep; [|discriminate]. destruct (p_phase pr) eqn:Eph; try discriminate.
      destruct (add (p_cache pr) (p_new pr) addr line) as [[c n] sv]. injection Hs as <-. apply (Inv_mono V _ u); [auto|auto|].
      apply Inv_quiet; [exact HI|destruct sv; reflexivity|]. intros o _ m Hm. destruct sv; discriminate.
    - (* create *) destruct (nth_error (s_procs s) p) as [pr|] eqn:Ep; [|discriminate]. destruct (p_phase pr) eqn:Eph; try discriminate.
      destruct (lookup s (Tmp tmp)) eqn:El; [discriminate|]. injection Hs as <-.
      destruct HI as [H1 H2 H3 H4 H5 H6]. set (new := List.length (s_nodes s)) in *.
      assert (Hu' : ~ In tmp u) by (apply Hu; left; reflexivity).
      match goal with |- Inv _ _ ?S => assert (L : forall x, lookup S x = if name_eqb x (Tmp tmp) then Some new else lookup s x) by (intros x; unfold lookup; cbn [s_dir]; apply aget_put) end.
      assert (Lt : lookup s Target <> Some new) by (intros E; apply H6 in E; lia).
      assert (NN : forall i nd, nth_error (s_nodes s) i = Some nd -> nth_error (s_nodes s ++ [{| n_data := []; n_durable := false |}]) i = Some nd)
        by (intros i nd E; rewrite nth_error_app1; [exact E|apply nth_error_Some; congruence]).
      assert (NP : forall q qr, nth_error (upd (s_procs s) p (fun _ => at_phase pr (Writing tmp new (enc (p_cache pr))))) q = Some qr ->
                 (q = p /\ qr = at_phase pr (Writing tmp new (enc (p_cache pr)))) \/ (q <> p /\ nth_error (s_procs s) q = Some qr)).
      { intros q qr Hq. rewrite nth_upd in Hq. destruct (Nat.eqb_spec p q) as [->|Hne]; [|auto]. rewrite Ep in Hq. cbn in Hq. injection Hq as <-. auto. }
      constructor; cbn [s_procs s_nodes].
      + intros i Hi. rewrite L in Hi. cbn in Hi. destruct (H1 i Hi) as (nd & c & A & B & C). exists nd, c. auto.
      + intros q qr n i r Hq Hf. rewrite !L. cbn [name_eqb]. destruct (NP q qr Hq) as [[-> ->]|[Hne Hq']].
        * unfold file_of in Hf. cbn [at_phase p_phase p_cache] in *. injection Hf as <- <- <-. rewrite Nat.eqb_refl. split; [reflexivity|]. split; [exact Lt|].
          split; [right; exists pr; auto|]. exists {| n_data := []; n_durable := false |}. split; [|reflexivity].
          unfold new. rewrite nth_error_app2 by lia. rewrite Nat.sub_diag. reflexivity.
        * destruct (H2 q qr n i r Hq' Hf) as (A & B & C & nd & D & E). destruct (Nat.eqb_spec n tmp) as [->|Hn].
          -- exfalso. apply Hu'. exact (H3 q qr tmp Hq' (file_tmp _ _ _ _ Hf)).
          -- split; [exact A|]. split; [exact B|]. split; [left; exact C|]. exists nd. auto.
      + intros q qr n Hq Hn. destruct (NP q qr Hq) as [[-> ->]|[Hne Hq']].
        * unfold tmp_of in Hn. cbn in Hn. injection Hn as <-. left. reflexivity.
        * right. exact (H3 q qr n Hq' Hn).
      + intros a b ar br n Ha Hb Han Hbn. destruct (NP a ar Ha) as [[-> ->]|[Hna Ha']]; destruct (NP b br Hb) as [[-> ->]|[Hnb Hb']]; auto.
        * exfalso. unfold tmp_of in Han. cbn in Han. injection Han as <-. apply Hu'. exact (H3 b br _ Hb' Hbn).
        * exfalso. unfold tmp_of in Hbn. cbn in Hbn. injection Hbn as <-. apply Hu'. exact (H3 a ar _ Ha' Han).
        * exact (H4 a b ar br n Ha' Hb' Han Hbn).
      + intros a b ar br n m i r r' Ha Hb Haf Hbf. destruct (NP a ar Ha) as [[-> ->]|[Hna Ha']]; destruct (NP b br Hb) as [[-> ->]|[Hnb Hb']]; auto.
        * exfalso. unfold file_of in Haf. cbn in Haf. injection Haf as <- <- <-. destruct (H2 b br m new r' Hb' Hbf) as (_ & _ & _ & nd & D & _).
          assert (new < List.length (s_nodes s))%nat by (apply nth_error_Some; congruence). unfold new in *. lia.
        * exfalso. unfold file_of in Hbf. cbn in Hbf. injection Hbf as <- <- <-. destruct (H2 a ar n new r Ha' Haf) as (_ & _ & _ & nd & D & _).
          assert (new < List.length (s_nodes s))%nat by (apply nth_error_Some; congruence). unfold new in *. lia.
        * exact (H5 a b ar br n m i r r' Ha' Hb' Haf Hbf).
      + intros x i Hi. rewrite L in Hi. rewrite app_length. cbn [List.length]. destruct (name_eqb x (Tmp tmp)); [injection Hi as <-; unfold new; lia|]. apply H6 in Hi. lia.
    - (* write *) destruct (nth_error (s_procs s) p) as [pr|] eqn:Ep; [|discriminate]. destruct (p_phase pr) as [| |tmp i rest| | |] eqn:Eph; try discriminate.
      injection Hs as <-. apply (Inv_mono V _ u); [auto|auto|]. destruct HI as [H1 H2 H3 H4 H5 H6].
      assert (Hf : file_of pr = Some (tmp, i, rest)) by (unfold file_of; rewrite Eph; reflexivity).
      destruct (H2 p pr tmp i rest Ep Hf) as (A & B & C & nd & D & E).
      set (pr' := at_phase pr (Writing tmp i (skipn (S k) rest))).
      assert (NP : forall q qr, nth_error (upd (s_procs s) p (fun _ => pr')) q = Some qr -> (q = p /\ qr = pr') \/ (q <> p /\ nth_error (s_procs s) q = Some qr)).
      { intros q qr Hq. rewrite nth_upd in Hq. destruct (Nat.eqb_spec p q) as [->|Hne]; [|auto]. rewrite Ep in Hq. cbn in Hq. injection Hq as <-. auto. }
      assert (Ht' : tmp_of pr' = Some tmp) by reflexivity. assert (Ht : tmp_of pr = Some tmp) by (eapply file_tmp; exact Hf).
      constructor; cbn [s_procs s_nodes]; auto.
      + intros j Hj. change (lookup s Target = Some j) in Hj. destruct (H1 j Hj) as (md & c & A' & B' & C'). exists md, c. split; [|auto]. rewrite nth_upd.
        destruct (Nat.eqb_spec i j) as [->|Hne]; [congruence|exact A'].
      + intros q qr n j r Hq Hqf. change (lookup s (Tmp n) = Some j /\ lookup s Target <> Some j /\ V (p_cache qr) /\ exists nd0, nth_error (upd (s_nodes s) i (fun nd0 => {| n_data := n_data nd0 ++ firstn (S k) rest; n_durable := false |})) j = Some nd0 /\ n_data nd0 ++ r = enc (p_cache qr)).
        destruct (NP q qr Hq) as [[-> ->]|[Hne Hq']].
        * unfold file_of, pr' in Hqf. cbn [at_phase p_phase] in Hqf. injection Hqf as <- <- <-. split; [exact A|]. split; [exact B|]. split; [exact C|].
          rewrite nth_upd, Nat.eqb_refl, D. eexists. split; [reflexivity|]. cbn [n_data]. rewrite <- app_assoc, firstn_skipn. exact E.
        * destruct (H2 q qr n j r Hq' Hqf) as (A' & B' & C' & md & D' & E'). split; [exact A'|]. split; [exact B'|]. split; [exact C'|]. exists md. split; [|exact E'].
          rewrite nth_upd. destruct (Nat.eqb_spec i j) as [->|Hn]; [|exact D']. exfalso. apply Hne. symmetry. exact (H5 p q pr qr tmp n j rest r Ep Hq' Hf Hqf).
      + intros q qr n Hq Hn. destruct (NP q qr Hq) as [[-> ->]|[Hne Hq']]; [|exact (H3 q qr n Hq' Hn)]. apply (H3 p pr n Ep). congruence.
      + intros a b ar br n Ha Hb Han Hbn. destruct (NP a ar Ha) as [[-> ->]|[Hna Ha']]; destruct (NP b br Hb) as [[-> ->]|[Hnb Hb']]; auto.
        * apply (H4 p b pr br n Ep Hb'); congruence.
        * apply (H4 a p ar pr n Ha' Ep); congruence.
        * exact (H4 a b ar br n Ha' Hb' Han Hbn).
      + intros a b ar br n m j r r' Ha Hb Haf Hbf. destruct (NP a ar Ha) as [[-> ->]|[Hna Ha']]; destruct (NP b br Hb) as [[-> ->]|[Hnb Hb']]; auto.
        * unfold file_of, pr' in Haf. cbn [at_phase p_phase] in Haf. injection Haf as <- <- <-. exact (H5 p b pr br tmp m i rest r' Ep Hb' Hf Hbf).
        * unfold file_of, pr' in Hbf. cbn [at_phase p_phase] in Hbf. injection Hbf as <- <- <-. exact (H5 a p ar pr n tmp i r rest Ha' Ep Haf Hf).
        * exact (H5 a b ar br n m j r r' Ha' Hb' Haf Hbf).
      + intros x j Hj. rewrite length_upd. exact (H6 x j Hj).
    - (* close *) destruct (nth_error (s_procs s) p) as [pr|] eqn:Ep; [|discriminate]. destruct (p_phase pr) as [| |tmp i [|z rest]| | |] eqn:Eph; try discriminate.
      injection Hs as <-. apply (Inv_mono V _ u); [auto|auto|]. destruct HI as [H1 H2 H3 H4 H5 H6].
      set (pr' := at_phase pr (Closed tmp i)).
      assert (Ef : file_of pr' = file_of pr) by (unfold file_of; rewrite Eph; reflexivity). assert (Et : tmp_of pr' = tmp_of pr) by (unfold tmp_of; rewrite Eph; reflexivity).
      assert (NP : forall q qr, nth_error (upd (s_procs s) p (fun _ => pr')) q = Some qr -> exists o, nth_error (s_procs s) q = Some o /\ file_of qr = file_of o /\ tmp_of qr = tmp_of o /\ p_cache qr = p_cache o).
      { intros q qr Hq. rewrite nth_upd in Hq. destruct (Nat.eqb_spec p q) as [->|Hne]; [|exists qr; auto]. rewrite Ep in Hq. cbn in Hq. injection Hq as <-. exists pr. auto. }
      constructor; cbn [set_proc s_procs s_nodes]; auto.
      + intros q qr n j r Hq Hf. destruct (NP q qr Hq) as (o & Ho & F & T & Cc). rewrite F in Hf. rewrite Cc. exact (H2 q o n j r Ho Hf).
      + intros q qr n Hq Hf. destruct (NP q qr Hq) as (o & Ho & F & T & Cc). rewrite T in Hf. exact (H3 q o n Ho Hf).
      + intros a b ar br n Ha Hb Han Hbn. destruct (NP a ar Ha) as (o & Ho & F & T & _). destruct (NP b br Hb) as (o' & Ho' & F' & T' & _). apply (H4 a b o o' n Ho Ho'); congruence.
      + intros a b ar br n m j r r' Ha Hb Haf Hbf. destruct (NP a ar Ha) as (o & Ho & F & T & _). destruct (NP b br Hb) as (o' & Ho' & F' & T' & _).
        rewrite F in Haf. rewrite F' in Hbf. exact (H5 a b o o' n m j r r' Ho Ho' Haf Hbf).
    - (* rename *) destruct (nth_error (s_procs s) p) as [pr|] eqn:Ep; [|discriminate]. destruct (p_phase pr) as [| | |tmp i| |] eqn:Eph; try discriminate.
      assert (Hf : file_of pr = Some (tmp, i, [])) by (unfold file_of; rewrite Eph; reflexivity).
      destruct (i_file _ _ _ HI p pr tmp i [] Ep Hf) as (A & B & C & nd & D & E). rewrite A in Hs. injection Hs as <-. apply (Inv_mono V _ u); [auto|auto|].
      set (pr' := at_phase pr (Cleanup tmp)).
      assert (HQ : Inv V u (set_proc s p pr')) by (apply Inv_quiet; [exact HI|reflexivity|intros o Ho n Hn; rewrite Ep in Ho; injection Ho as <-; cbn in Hn; unfold tmp_of; rewrite Eph; exact Hn]).
      assert (Hp' : nth_error (s_procs (set_proc s p pr')) p = Some pr') by (cbn [set_proc s_procs]; rewrite nth_upd, Nat.eqb_refl, Ep; reflexivity).
      pose proof (Inv_unlink V u _ p tmp pr' HQ Hp' eq_refl eq_refl) as HL. cbn [set_proc s_nodes s_dir s_procs] in HL.
      destruct HL as [H1 H2 H3 H4 H5 H6].
      match goal with |- Inv _ _ ?S => set (s2 := S) end. set (s1 := {| s_nodes := s_nodes s; s_dir := unlink (Tmp tmp) (s_dir s); s_procs := upd (s_procs s) p (fun _ => pr') |}) in *.
      assert (L : forall x, lookup s2 x = if name_eqb x Target then Some i else lookup s1 x) by (intros x; unfold lookup; cbn [s2 s1 s_dir]; apply aget_put).
      constructor; auto.
      + intros j Hj. rewrite L in Hj. cbn in Hj. injection Hj as <-. exists nd, (p_cache pr). rewrite app_nil_r in E. auto.
      + intros q qr n j r Hq Hqf. destruct (H2 q qr n j r Hq Hqf) as (A' & B' & C' & md & D' & E'). rewrite !L. cbn [name_eqb]. split; [exact A'|]. split; [|split; [exact C'|exists md; auto]].
        intros Ej. injection Ej as <-. destruct (Nat.eq_dec q p) as [->|Hne].
        * change (nth_error (upd (s_procs s) p (fun _ => pr')) p = Some qr) in Hq. rewrite nth_upd, Nat.eqb_refl, Ep in Hq. cbn in Hq. injection Hq as <-. discriminate Hqf.
        * apply Hne. symmetry. change (nth_error (upd (s_procs s) p (fun _ => pr')) q = Some qr) in Hq. rewrite nth_upd in Hq. destruct (Nat.eqb_spec p q); [congruence|].
          exact (i_inos _ _ _ HI p q pr qr tmp n i [] r Ep Hq Hf Hqf).
      + intros x j Hj. rewrite L in Hj. destruct (name_eqb x Target); [|exact (H6 x j Hj)]. injection Hj as <-. apply nth_error_Some. cbn [s2 s_nodes]. congruence.
    - (* remove *) destruct (nth_error (s_procs s) p) as [pr|] eqn:Ep; [|discriminate]. destruct (p_phase pr) as [| | | |tmp|] eqn:Eph; try discriminate.
      injection Hs as <-. apply (Inv_mono V _ u); [auto|auto|].
      pose proof (Inv_unlink V u s p tmp pr HI Ep ltac:(unfold tmp_of; rewrite Eph; reflexivity) ltac:(unfold file_of; rewrite Eph; reflexivity)) as HL.
      apply (Inv_quiet V u _ p (at_phase pr Idle)) in HL; [exact HL|reflexivity|]. intros o _ n Hn. discriminate Hn.
    - (* fail *) destruct (nth_error (s_procs s) p) as [pr|] eqn:Ep; [|discriminate]. apply (Inv_mono V _ u); [auto|auto|].
      destruct (p_phase pr) as [| |tmp i rest|tmp i|tmp|] eqn:Eph; try discriminate; injection Hs as <-;
      (apply Inv_quiet; [exact HI|reflexivity|]); intros o Ho n Hn; try discriminate Hn; rewrite Ep in Ho; injection Ho as <-; cbn in Hn; unfold tmp_of; rewrite Eph; exact Hn.
    - (* kill *) destruct (nth_error (s_procs s) p) as [pr|] eqn:Ep; [|discriminate]. apply (Inv_mono V _ u); [auto|auto|]. injection Hs as <-.
      apply Inv_quiet; [exact HI|reflexivity|]. intros o _ n Hn. discriminate Hn.
    - (* flush *) injection Hs as <-. apply (Inv_mono V _ u); [auto|auto|]. destruct HI as [H1 H2 H3 H4 H5 H6].
      assert (NN : forall j nd, nth_error (s_nodes s) j = Some nd -> exists nd', nth_error (upd (s_nodes s) i (fun nd => {| n_data := n_data nd; n_durable := true |})) j = Some nd' /\ n_data nd' = n_data nd).
      { intros j nd Hj. rewrite nth_upd, Hj. destruct (Nat.eqb i j); eexists; split; reflexivity. }
      constructor; cbn [s_procs s_nodes]; auto.
      + intros j Hj. destruct (H1 j Hj) as (nd & c & A & B & C). destruct (NN j nd A) as (nd' & A' & B'). exists nd', c. rewrite B'. auto.
      + intros q qr n j r Hq Hf. destruct (H2 q qr n j r Hq Hf) as (A & B & C & nd & D & E). destruct (NN j nd D) as (nd' & A' & B').
        split; [exact A|]. split; [exact B|]. split; [exact C|]. exists nd'. rewrite B'. auto.
      + intros x j Hj. rewrite length_upd. exact (H6 x j Hj).
    - (* power *) injection Hs as <-. apply (Inv_mono V _ u); [auto|auto|]. specialize (Hpow keep eq_refl). destruct HI as [H1 H2 H3 H4 H5 H6].
      assert (ND : forall q qr, nth_error (map (fun pr => at_phase pr Dead) (s_procs s)) q = Some qr -> p_phase qr = Dead).
      { intros q qr Hq. apply nth_error_In, in_map_iff in Hq as (o & <- & _). reflexivity. }
      constructor; cbn [s_procs s_nodes].
      + intros j Hj. change (lookup s Target = Some j) in Hj. destruct (H1 j Hj) as (nd & c & A & B & C). exists nd, c. split; [|auto]. rewrite nth_mapi, A. cbn [option_map].
        rewrite (Hpow j nd Hj A). reflexivity.
      + intros q qr n j r Hq Hf. apply ND in Hq. unfold file_of in Hf. rewrite Hq in Hf. discriminate.
      + intros q qr n Hq Hf. apply ND in Hq. unfold tmp_of in Hf. rewrite Hq in Hf. discriminate.
      + intros a b ar br n Ha Hb Han Hbn. apply ND in Ha. unfold tmp_of in Han. rewrite Ha in Han. discriminate.
      + intros a b ar br n m j r r' Ha Hb Haf Hbf. apply ND in Ha. unfold file_of in Haf. rewrite Ha in Haf. discriminate.
      + intros x j Hj. rewrite length_mapi. exact (H6 x j Hj).
  Qed.

  Lemma exec_inv t : forall V u s s', Inv V u s -> NoDup (temps t) -> (forall n, In n (temps t) -> ~ In n u) -> power_ok enc dec s t -> exec enc dec s t = Some s' ->
    exists u', Inv (fun c => V c \/ saved_in enc dec s t c) u' s'.
  Proof.
    induction t as [|ev t IH]; intros V u s s' HI Hnd Hu Hp Hs; cbn [exec] in Hs.
    - injection Hs as <-. exists u. apply (Inv_mono V _ u); auto.
    - destruct (step enc dec s ev) as [s1|] eqn:E1; [|discriminate].
      assert (Et : temps (ev :: t) = newtmp ev ++ temps t) by reflexivity. rewrite Et in *.
      assert (I1 : Inv (fun c => V c \/ ver s ev c) (newtmp ev ++ u) s1).
      { apply (step_inv V u s ev s1 HI); [|intros k ->; apply (Hp [] k t s); reflexivity|exact E1]. intros n Hn. apply Hu. apply in_or_app. auto. }
      destruct (IH _ _ s1 s' I1) as (u' & I2).
      + clear - Hnd. destruct ev; cbn [newtmp app] in Hnd; try exact Hnd. inversion Hnd; assumption.
      + intros n Hn Hin. apply in_app_or in Hin as [Hin|Hin].
        * clear - Hnd Hn Hin. destruct ev; cbn [newtmp app] in *; try (destruct Hin; fail). destruct Hin as [<-|[]]. inversion Hnd; auto.
        * apply (Hu n); [apply in_or_app; auto|exact Hin].
      + intros t1 k t2 s2 -> E2. apply (Hp (ev :: t1) k t2 s2); [reflexivity|]. cbn [exec]. rewrite E1. exact E2.
      + exact Hs.
      + exists u'. eapply Inv_mono; [|intros n Hn; exact Hn|exact I2]. cbn. intros c [[Hv|Hv]|(t1 & p & n & t2 & s2 & pr & -> & E2 & Ep & ->)].
        * auto.
        * right. destruct ev; cbn [ver] in Hv; try (destruct Hv; fail). destruct Hv as (pr & Ep & ->). exists [], p, tmp, t, s, pr. auto.
        * right. exists (ev :: t1), p, n, t2, s2, pr. split; [reflexivity|]. cbn [exec]. rewrite E1. auto.
  Qed.

  Theorem file_is_a_version s c0 t s' : start enc s c0 -> NoDup (temps t) -> power_ok enc dec s t -> exec enc dec s t = Some s' ->
    read s' Target = None \/ exists c, read s' Target = Some (enc c) /\ (c0 = Some c \/ saved_in enc dec s t c).
  Proof.
    intros (H1 & H2 & H3) Hnd Hp Hs.
    assert (HI : Inv (fun c => c0 = Some c) [] s).
    { constructor; try (intros *; rewrite H1; intros Hq; rewrite ?nth_error_nil in Hq; try (destruct p; discriminate)).
      - intros i Hi. pose proof (H2 _ _ Hi) as Hb. destruct (nth_error (s_nodes s) i) as [nd|] eqn:E; [|apply nth_error_None in E; lia].
        unfold read in H3. rewrite Hi, E in H3. cbn in H3. destruct c0 as [c|]; cbn in H3; [|discriminate]. injection H3 as H3. exists nd, c. auto.
      - exact H2. }
    destruct (exec_inv t _ _ s s' HI Hnd ltac:(intros n _ []) Hp Hs) as (u' & [I1 _ _ _ _ _]).
    unfold read. destruct (lookup s' Target) as [i|]; [|left; reflexivity]. right. destruct (I1 i eq_refl) as (nd & c & A & B & C). exists c. rewrite A. cbn. rewrite B. auto.
  Qed.
End Inv.
