(** * Proofs about BPF-program selection *)
From Coq Require Import List Bool String ZArith Lia.
From Verif Require Import M_Go P_Go M_ProgSel S_ProgSel.
Import ListNotations.
Open Scope string_scope.
Open Scope list_scope.

Lemma keyb_ok : eqb_ok keyb.
Proof.
  intros [a b] [c d]. unfold keyb. cbn [fst snd]. destruct (Z.eqb_spec a c) as [E1|E1], (String.eqb_spec b d) as [E2|E2]; cbn; constructor; congruence.
Qed.
Lemma load_spec w i p : world_ok w -> (load w i = Some p <-> In p (w_progs w) /\ pg_id p = i).
Proof.
  unfold load, world_ok. induction (w_progs w) as [|q l IH]; cbn [find map]; intros H; [split; [discriminate|intros [[] _]]|]. inversion H as [|? ? H1 H2]; subst.
  destruct (Z.eqb_spec (pg_id q) i) as [E|E].
  - split; [intros X; injection X as <-; cbn; auto|]. intros [[->|Hin] E']; [reflexivity|]. exfalso. apply H1. rewrite E, <- E'. apply in_map. exact Hin.
  - rewrite (IH H2). cbn. intuition congruence.
Qed.
Definition grows (J : key -> imm -> Prop) (tr tr' : tracings) : Prop :=
  (forall k v, aget keyb k tr = Some v -> aget keyb k tr' = Some v) /\ (forall k v, aget keyb k tr' = Some v -> aget keyb k tr = Some v \/ J k v).
Lemma grows_refl J tr : grows J tr tr.
Proof. split; auto. Qed.
Lemma grows_trans J a b c : grows J a b -> grows J b c -> grows J a c.
Proof. intros [A1 A2] [B1 B2]. split; auto. intros k v H. destruct (B2 k v H) as [X|X]; auto. Qed.
Lemma grows_weaken (J J' : key -> imm -> Prop) a b : (forall k v, J k v -> J' k v) -> grows J a b -> grows J' a b.
Proof. intros H [A1 A2]. split; auto. intros k v X. destruct (A2 k v X); auto. Qed.
Definition has (k : key) (tr : tracings) : Prop := aget keyb k tr <> None.
Lemma grows_has J a b k : grows J a b -> has k a -> has k b.
Proof. unfold has. intros [A1 _] H. destruct (aget keyb k a) as [v|] eqn:E; [|congruence]. rewrite (A1 _ _ E). discriminate. Qed.
Definition req (d : bool) (p : prog) (fn : string) (im : imm) (k : key) (v : imm) : Prop :=
  k = (pg_id p, fn) /\ v = im /\ can_be d p fn /\ In fn (pg_funcs p).
Lemma add_ok d p fn im tr tr' : add_tracing d p fn im tr = Some tr' -> grows (req d p fn im) tr tr' /\ (can_be d p fn -> has (pg_id p, fn) tr').
Proof.
  unfold add_tracing. destruct (negb (pg_can p) && negb d) eqn:Ec.
  - intros E. injection E as <-. split; [apply grows_refl|]. intros [[H|H] _]; rewrite H in Ec; cbn in Ec; [discriminate|rewrite andb_false_r in Ec; discriminate].
  - assert (Hc : pg_can p = true \/ d = true) by (destruct (pg_can p), d; cbn in Ec; auto; discriminate).
    destruct (aget keyb (pg_id p, fn) tr) as [v|] eqn:E; [intros H; injection H as <-; split; [apply grows_refl|intros _; unfold has; congruence]|].
    destruct (existsb (String.eqb fn) (pg_funcs p)) eqn:Ee; cbn [negb]; [|discriminate]. destruct (pg_skip p fn) eqn:Es.
    + intros H. injection H as <-. split; [apply grows_refl|]. intros [_ H]. congruence.
    + intros H. injection H as <-. split.
      * split.
        -- intros k v Hk. rewrite (aget_aput _ keyb_ok). destruct (keyb_ok k (pg_id p, fn)) as [Ek|Ek]; [congruence|exact Hk].
        -- intros k v. rewrite (aget_aput _ keyb_ok). destruct (keyb_ok k (pg_id p, fn)) as [Ek|Ek]; [|auto]. intros Hv. injection Hv as <-. right. repeat split; auto.
           apply existsb_exists in Ee as (x & Hx & Ex). apply String.eqb_eq in Ex. subst x. exact Hx.
      * intros _. unfold has. rewrite (aget_aput _ keyb_ok). destruct (keyb_ok (pg_id p, fn) (pg_id p, fn)); congruence.
Qed.
Section W.
  Variables (w : world) (d : bool).
  Hypothesis Hw : world_ok w.
  (** a request by the id of a program *)
  Definition req_id (i : Z) (im : imm) (k : key) (v : imm) : Prop :=
    exists p fn, In p (w_progs w) /\ pg_id p = i /\ func_name (im_func im) p = Some fn /\ req d p fn im k v.
  Lemma add_by_id_ok i im tr tr' : add_by_id w d i im tr = Some tr' -> grows (req_id i im) tr tr' /\
    forall p fn, In p (w_progs w) -> pg_id p = i -> func_name (im_func im) p = Some fn -> can_be d p fn -> has (i, fn) tr'.
  Proof.
    unfold add_by_id. destruct (load w i) as [p|] eqn:El; [|discriminate]. apply (load_spec w i p Hw) in El as [Hp Hi]. destruct (func_name (im_func im) p) as [fn|] eqn:Ef; [|discriminate].
    intros H. apply add_ok in H as [G C]. split.
    - eapply grows_weaken; [|exact G]. intros k v R. exists p, fn. auto.
    - intros q fn' Hq Hqi Hf Hc. assert (q = p) as ->.
      { assert (load w i = Some q) by (apply load_spec; auto). assert (load w i = Some p) by (apply load_spec; auto). congruence. }
      rewrite Ef in Hf. injection Hf as <-. subst i. auto.
  Qed.
  Lemma asked_id f i p fn : pf_sel f = PId i -> asked w f p fn <-> In p (w_progs w) /\ pg_id p = i /\ func_name (im_func (pf_imm f)) p = Some fn.
  Proof.
    intros E. unfold asked, func_name. rewrite E. cbn [selects]. destruct (String.eqb (im_func (pf_imm f)) ""); [reflexivity|]. intuition congruence.
  Qed.
  (** what is traced is asked for by a flag *)
  Definition just (fs : list pflag) (g : pflag -> imm -> Prop) (k : key) (v : imm) : Prop :=
    exists f p, In f fs /\ asked w f p (snd k) /\ pg_id p = fst k /\ can_be d p (snd k) /\ In (snd k) (pg_funcs p) /\ g f v.
  Definition exact (f : pflag) (v : imm) : Prop := v = pf_imm f.
  Definition stripped (f : pflag) (v : imm) : Prop := v = strip (pf_imm f).
  Lemma by_ids_ok fs : forall tr tr', by_ids w d fs tr = Some tr' -> grows (just fs exact) tr tr' /\
    forall f p fn, In f fs -> asked w f p fn -> can_be d p fn -> has (pg_id p, fn) tr'.
  Proof.
    induction fs as [|f fs IH]; intros tr tr'; cbn [by_ids].
    - intros H. injection H as <-. split; [apply grows_refl|intros f p fn []].
    - destruct (pf_sel f) as [|i| | | |] eqn:Es; try discriminate. destruct (add_by_id w d i (pf_imm f) tr) as [tr1|] eqn:E; [|discriminate]. intros H.
      apply add_by_id_ok in E as [G1 C1]. apply IH in H as [G2 C2]. split.
      + eapply grows_trans.
        * eapply grows_weaken; [|exact G1]. intros k v (p & fn & Hp & Hi & Hf & (-> & -> & Hc & Hin)). exists f, p. cbn [fst snd]. split; [left; reflexivity|]. split; [apply (asked_id f i); auto|]. split; [reflexivity|]. split; [exact Hc|]. split; [exact Hin|reflexivity].
        * eapply grows_weaken; [|exact G2]. intros k v (h & p & Hh & X). exists h, p. split; [right; exact Hh|exact X].
      + intros h p fn [<-|Hh] Ha Hc; [|eapply C2; eassumption]. apply (asked_id f i p fn Es) in Ha as (A1 & A2 & A3). eapply grows_has; [exact G2|]. rewrite A2. eapply C1; eassumption.
  Qed.
  (** and the first flag that asks for it decides *)
  Lemma by_ids_first fs : forall tr tr', by_ids w d fs tr = Some tr' -> forall k v, aget keyb k tr = None -> aget keyb k tr' = Some v ->
    exists l1 f l2 p, fs = l1 ++ f :: l2 /\ asked w f p (snd k) /\ pg_id p = fst k /\ v = pf_imm f /\ forall g q, In g l1 -> pg_id q = fst k -> ~ asked w g q (snd k).
  Proof.
    induction fs as [|f fs IH]; intros tr tr'; cbn [by_ids].
    - intros H. injection H as <-. congruence.
    - destruct (pf_sel f) as [|i| | | |] eqn:Es; try discriminate. destruct (add_by_id w d i (pf_imm f) tr) as [tr1|] eqn:E; [|discriminate]. intros H k v Hn Hv.
      assert (E' := E). apply add_by_id_ok in E as [G1 C1]. assert (G2 := proj1 (by_ids_ok fs tr1 tr' H)). destruct (aget keyb k tr1) as [v1|] eqn:E1.
      + destruct (proj2 G1 _ _ E1) as [X|(p & fn & Hp & Hi & Hf & (-> & -> & Hc & Hin))]; [congruence|]. rewrite (proj1 G2 _ _ E1) in Hv. injection Hv as <-.
        exists [], f, fs, p. split; [reflexivity|]. cbn [fst snd]. split; [apply (asked_id f i); auto|]. split; [reflexivity|]. split; [reflexivity|]. intros g q [].
      + destruct (IH tr1 tr' H k v E1 Hv) as (l1 & h & l2 & p & -> & Ha & Hi & Hve & Hl). exists (f :: l1), h, l2, p. split; [reflexivity|]. split; [exact Ha|]. split; [exact Hi|]. split; [exact Hve|].
        intros g q [<-|Hg] Hq Hag; [|exact (Hl g q Hg Hq Hag)]. assert (Hag' := Hag). apply (asked_id f i q (snd k) Es) in Hag as (A1 & A2 & A3).
        (* the program is the same, and it can be traced: then it is traced already *)
        assert (p = q). { assert (load w i = Some q) by (apply load_spec; auto). assert (load w i = Some p) by (apply load_spec; [exact Hw|]; split; [apply Ha|congruence]). congruence. }
        subst q. destruct (proj2 G2 k v Hv) as [X|(h' & p' & _ & Ha' & Hi' & Hc' & _)]; [congruence|].
        assert (p' = p). { assert (load w i = Some p) by (apply load_spec; auto). assert (load w i = Some p') by (apply load_spec; [exact Hw|]; split; [apply Ha'|congruence]). congruence. }
        subst p'. assert (X := C1 p (snd k) A1 A2 A3 Hc'). apply X. replace (i, snd k) with k; [exact E1|]. rewrite <- A2, Hq. destruct k; reflexivity.
  Qed.
  Lemma by_fds_ok ids im : forall tr tr', by_fds w d ids im tr = Some tr' ->
    grows (fun k v => exists i, In i ids /\ req_id i im k v) tr tr' /\
    forall i p fn, In i ids -> In p (w_progs w) -> pg_id p = i -> func_name (im_func im) p = Some fn -> can_be d p fn -> has (i, fn) tr'.
  Proof.
    induction ids as [|i ids IH]; intros tr tr'; cbn [by_fds].
    - intros H. injection H as <-. split; [apply grows_refl|intros i p fn []].
    - destruct (add_by_id w d i im tr) as [tr1|] eqn:E; [|discriminate]. intros H. apply add_by_id_ok in E as [G1 C1]. apply IH in H as [G2 C2]. split.
      + eapply grows_trans; [eapply grows_weaken; [|exact G1]; intros k v X; exists i; cbn; auto|eapply grows_weaken; [|exact G2]; intros k v (j & Hj & X); exists j; cbn; auto].
      + intros j p fn [<-|Hj] Hp Hi Hf Hc; [eapply grows_has; [exact G2|]; eapply C1; eassumption|eapply C2; eassumption].
  Qed.
  Definition other (s : sel) : Prop := match s with PPinned _ | PPid _ => True | _ => False end.
  Lemma fname_asked f p fn : In p (w_progs w) -> selects w (pf_sel f) p -> func_name (im_func (pf_imm f)) p = Some fn <-> asked w f p fn.
  Proof. intros Hp Hs. unfold asked, func_name. destruct (String.eqb (im_func (pf_imm f)) ""); intuition congruence. Qed.
  Lemma by_others_ok fs : forall tr tr', by_others w d fs tr = Some tr' ->
    grows (just fs (fun f v => other (pf_sel f) /\ exact f v)) tr tr' /\
    forall f p fn, In f fs -> other (pf_sel f) -> asked w f p fn -> can_be d p fn -> has (pg_id p, fn) tr'.
  Proof.
    induction fs as [|f fs IH]; intros tr tr'; cbn [by_others].
    - intros H. injection H as <-. split; [apply grows_refl|intros f p fn []].
    - set (m := match pf_sel f with PPinned s => match w_pins w s with Some i => add_by_id w d i (pf_imm f) tr | None => None end | PPid q => by_fds w d (w_fds w q) (pf_imm f) tr | _ => Some tr end).
      assert (X : forall tr1, m = Some tr1 -> grows (just [f] (fun f v => other (pf_sel f) /\ exact f v)) tr tr1 /\
                  forall p fn, other (pf_sel f) -> asked w f p fn -> can_be d p fn -> has (pg_id p, fn) tr1).
      { intros tr1. subst m. destruct (pf_sel f) as [|i|t|n|s|q] eqn:Es; try (intros H; injection H as <-; split; [apply grows_refl|intros p fn []]).
        - destruct (w_pins w s) as [i|] eqn:Ep; [|discriminate]. intros H. apply add_by_id_ok in H as [G C]. split.
          + eapply grows_weaken; [|exact G]. intros k v (p & fn & Hp & Hi & Hf & (-> & -> & Hc & Hin)). exists f, p. cbn [fst snd]. split; [left; reflexivity|].
            split; [apply fname_asked; auto; rewrite Es; cbn; congruence|]. rewrite Es. repeat split; auto; apply Hc.
          + intros p fn _ Ha Hc. assert (Hp := proj1 Ha). assert (Hs := proj1 (proj2 Ha)). rewrite Es in Hs. cbn in Hs. rewrite Ep in Hs. injection Hs as ->.
            apply (C p fn); auto. apply fname_asked; auto. rewrite Es. exact Ep.
        - intros H. apply by_fds_ok in H as [G C]. split.
          + eapply grows_weaken; [|exact G]. intros k v (i & Hi0 & p & fn & Hp & Hi & Hf & (-> & -> & Hc & Hin)). exists f, p. cbn [fst snd]. split; [left; reflexivity|].
            split; [apply fname_asked; auto; rewrite Es; cbn; rewrite Hi; exact Hi0|]. rewrite Es. repeat split; auto; apply Hc.
          + intros p fn _ Ha Hc. assert (Hp := proj1 Ha). assert (Hs := proj1 (proj2 Ha)). rewrite Es in Hs. cbn in Hs.
            apply (C (pg_id p) p fn); auto. apply fname_asked; auto. rewrite Es. exact Hs. }
      destruct m as [tr1|]; [|discriminate]. intros H. destruct (X tr1 eq_refl) as [G1 C1]. apply IH in H as [G2 C2]. split.
      + eapply grows_trans; [eapply grows_weaken; [|exact G1]|eapply grows_weaken; [|exact G2]]; intros k v (h & p & Hh & R); exists h, p; (split; [|exact R]); [destruct Hh as [<-|[]]; left; reflexivity|right; exact Hh].
      + intros h p fn [<-|Hh] Ho Ha Hc; [eapply grows_has; [exact G2|]; apply C1; assumption|eapply C2; eassumption].
  Qed.

  (** ** the maps *)
  Definition get (ps : pflags) (s : sel) : option imm :=
    match s with PAll => ps_all ps | PId i => aget Z.eqb i (ps_ids ps) | PTag t => aget String.eqb t (ps_tags ps) | PName n => aget String.eqb n (ps_names ps) | _ => None end.
  Lemma sel_dec (a b : sel) : {a = b} + {a <> b}.
  Proof. decide equality; try apply Z.eq_dec; apply string_dec. Qed.
  Lemma get_step acc f s : pf_sel f <> PAll -> get (new_flags acc [f]) s = if sel_dec (pf_sel f) s then (if match s with PPinned _ | PPid _ => false | _ => true end then Some (strip (pf_imm f)) else get acc s) else get acc s.
  Proof.
    intros Hn. cbn [new_flags]. destruct (sel_dec (pf_sel f) s) as [E|E].
    - subst s. destruct (pf_sel f); cbn [get ps_ids ps_tags ps_names ps_all]; try congruence; try reflexivity.
      + rewrite (aget_aput _ Zeqb_ok), Z.eqb_refl. reflexivity.
      + rewrite (aget_aput _ Seqb_ok), String.eqb_refl. reflexivity.
      + rewrite (aget_aput _ Seqb_ok), String.eqb_refl. reflexivity.
    - destruct (pf_sel f) as [|i|t|n|q|q], s as [|i'|t'|n'|q'|q']; cbn [get ps_ids ps_tags ps_names ps_all]; try reflexivity; try congruence.
      + rewrite (aget_aput _ Zeqb_ok). destruct (Z.eqb_spec i' i); [congruence|reflexivity].
      + rewrite (aget_aput _ Seqb_ok). destruct (String.eqb_spec t' t); [congruence|reflexivity].
      + rewrite (aget_aput _ Seqb_ok). destruct (String.eqb_spec n' n); [congruence|reflexivity].
  Qed.
  Lemma new_flags_cons acc f fs : pf_sel f <> PAll -> new_flags acc (f :: fs) = new_flags (new_flags acc [f]) fs.
  Proof. intros H. cbn [new_flags]. destruct (pf_sel f); try congruence; reflexivity. Qed.
  Lemma new_flags_app l : forall acc fs, (forall f, In f l -> pf_sel f <> PAll) -> new_flags acc (l ++ fs) = new_flags (new_flags acc l) fs.
  Proof.
    induction l as [|f l IH]; intros acc fs H; [reflexivity|]. cbn [app]. rewrite new_flags_cons by (apply H; left; reflexivity). rewrite IH by (intros g Hg; apply H; right; exact Hg).
    rewrite <- new_flags_cons by (apply H; left; reflexivity). reflexivity.
  Qed.
  Lemma get_sound fs : forall acc s im, get (new_flags acc fs) s = Some im -> get acc s = Some im \/ exists f, In f fs /\ pf_sel f = s /\ im = strip (pf_imm f).
  Proof.
    induction fs as [|f fs IH]; intros acc s im; [auto|]. destruct (sel_dec (pf_sel f) PAll) as [E|E].
    - cbn [new_flags]. rewrite E. destruct s; cbn [get ps_ids ps_tags ps_names ps_all]; auto. intros H. injection H as <-. right. exists f. cbn. auto.
    - rewrite new_flags_cons by exact E. intros H. apply IH in H as [H|(g & Hg & H)]; [|right; exists g; cbn; auto].
      rewrite get_step in H by exact E. destruct (sel_dec (pf_sel f) s) as [Es|Es]; [|auto]. destruct s; auto; injection H as <-; right; exists f; cbn; auto.
  Qed.
  Lemma get_last l f : forall acc s, (forall g, In g l -> pf_sel g <> PAll) -> pf_sel f = s -> s <> PAll -> by_itself s -> get (new_flags acc (l ++ [f])) s = Some (strip (pf_imm f)).
  Proof.
    intros acc s Hl Hf Hs Hb. rewrite new_flags_app by exact Hl. rewrite get_step by congruence. destruct (sel_dec (pf_sel f) s); [|congruence]. destruct s; cbn in *; try reflexivity; contradiction.
  Qed.
  Lemma get_keep fs : forall acc s, (forall g, In g fs -> pf_sel g <> PAll /\ pf_sel g <> s) -> get (new_flags acc fs) s = get acc s.
  Proof.
    induction fs as [|f fs IH]; intros acc s H; [reflexivity|]. destruct (H f ltac:(left; reflexivity)) as [H1 H2]. rewrite new_flags_cons by exact H1. rewrite IH by (intros g Hg; apply H; right; exact Hg).
    rewrite get_step by exact H1. destruct (sel_dec (pf_sel f) s); [congruence|reflexivity].
  Qed.
  Lemma all_iff fs : forall acc, ps_all (new_flags acc fs) <> None <-> ps_all acc <> None \/ exists f, In f fs /\ pf_sel f = PAll.
  Proof.
    induction fs as [|f fs IH]; intros acc; [split; [auto|intros [H|(f & [] & _)]; exact H]|]. destruct (sel_dec (pf_sel f) PAll) as [E|E].
    - cbn [new_flags]. rewrite E. cbn [ps_all]. split; [intros _; right; exists f; cbn; auto|discriminate].
    - rewrite new_flags_cons by exact E. rewrite IH. assert (ps_all (new_flags acc [f]) = ps_all acc) as -> by (cbn [new_flags]; destruct (pf_sel f); try congruence; reflexivity).
      split; (intros [H|(g & Hg & H)]; [auto|]); right; [exists g; cbn; auto|]. destruct Hg as [<-|Hg]; [congruence|exists g; auto].
  Qed.
  (** ** the visits *)
  Lemma opt_add_ok p e o tr tr' : pg_entry p = Some e -> opt_add d p e o tr = Some tr' ->
    grows (fun k v => exists im fn, o = Some im /\ func_name (im_func im) p = Some fn /\ req d p fn im k v) tr tr' /\
    forall im fn, o = Some im -> func_name (im_func im) p = Some fn -> can_be d p fn -> has (pg_id p, fn) tr'.
  Proof.
    intros He. unfold opt_add. destruct o as [im|]; [|intros H; injection H as <-; split; [apply grows_refl|discriminate]].
    assert (Ef : func_name (im_func im) p = Some (if String.eqb (im_func im) "" then e else im_func im)) by (unfold func_name; destruct (String.eqb (im_func im) ""); auto).
    intros H. apply add_ok in H as [G C]. split.
    - eapply grows_weaken; [|exact G]. intros k v R. exists im, (if String.eqb (im_func im) "" then e else im_func im). auto.
    - intros im' fn E Hf. injection E as <-. rewrite Ef in Hf. injection Hf as <-. exact C.
  Qed.
  Definition selb (s : sel) : Prop := match s with PId _ | PTag _ | PName _ => True | _ => False end.
  Definition from_map (ps : pflags) (p : prog) (k : key) (v : imm) : Prop :=
    exists s fn, (match s with PAll => True | _ => selb s /\ ps_all ps = None end) /\ selects w s p /\ pg_entry p <> None /\ get ps s = Some v /\
      (match s with PAll => pg_entry p = Some fn | _ => func_name (im_func v) p = Some fn end) /\ req d p fn v k v.
  Lemma visit_ok ps p tr tr' : visit d ps p tr = Some tr' -> grows (from_map ps p) tr tr' /\
    (forall s im fn, selb s -> ps_all ps = None -> selects w s p -> pg_entry p <> None -> get ps s = Some im -> func_name (im_func im) p = Some fn -> can_be d p fn -> has (pg_id p, fn) tr') /\
    (forall fn, ps_all ps <> None -> pg_entry p = Some fn -> can_be d p fn -> has (pg_id p, fn) tr').
  Proof.
    unfold visit. destruct (pg_entry p) as [e|] eqn:Ee; [|intros H; injection H as <-; split; [apply grows_refl|split; [intros; congruence|discriminate]]].
    destruct (ps_all ps) as [im|] eqn:Ea.
    - intros H. apply add_ok in H as [G C]. split.
      + eapply grows_weaken; [|exact G]. intros k v R. assert (v = im) by apply R. subst v. exists PAll, e. cbn [selects get]. rewrite Ea, Ee. repeat split; auto; try apply R. congruence.
      + split; [intros; congruence|]. intros fn _ E. injection E as <-. exact C.
    - destruct (opt_add d p e (aget Z.eqb (pg_id p) (ps_ids ps)) tr) as [tr1|] eqn:E1; [|discriminate]. destruct (opt_add d p e (aget String.eqb (pg_tag p) (ps_tags ps)) tr1) as [tr2|] eqn:E2; [|discriminate]. intros E3.
      apply (opt_add_ok p e _ _ _ Ee) in E1 as [G1 C1], E2 as [G2 C2], E3 as [G3 C3]. split.
      + eapply grows_trans; [eapply grows_trans|]; (eapply grows_weaken; [|eassumption]); intros k v (im & fn & Ho & Hf & R); assert (v = im) by apply R; subst v.
        * exists (PId (pg_id p)), fn. cbn [selects get selb]. repeat split; auto; try apply R; congruence.
        * exists (PTag (pg_tag p)), fn. cbn [selects get selb]. repeat split; auto; try apply R; congruence.
        * exists (PName e), fn. cbn [selects get selb]. repeat split; auto; try apply R; congruence.
      + split; [|intros; congruence]. intros s im fn Hb _ Hs _ Hg Hf Hc. destruct s as [|i|t|n|q|q]; cbn in Hb; try contradiction; cbn [selects get] in Hs, Hg.
        * eapply grows_has; [exact G3|]. eapply grows_has; [exact G2|]. subst i. eapply C1; eassumption.
        * eapply grows_has; [exact G3|]. subst t. eapply C2; eassumption.
        * assert (n = e) as -> by congruence. eapply C3; eassumption.
  Qed.
  Lemma visit_all_ok ps l : forall tr tr', visit_all d ps l tr = Some tr' -> grows (fun k v => exists p, In p l /\ from_map ps p k v) tr tr' /\
    (forall p s im fn, In p l -> selb s -> ps_all ps = None -> selects w s p -> pg_entry p <> None -> get ps s = Some im -> func_name (im_func im) p = Some fn -> can_be d p fn -> has (pg_id p, fn) tr') /\
    (forall p fn, In p l -> ps_all ps <> None -> pg_entry p = Some fn -> can_be d p fn -> has (pg_id p, fn) tr').
  Proof.
    induction l as [|p l IH]; intros tr tr'; cbn [visit_all].
    - intros H. injection H as <-. split; [apply grows_refl|]. split; intros p; intros; contradiction.
    - destruct (visit d ps p tr) as [tr1|] eqn:E; [|discriminate]. intros H. apply visit_ok in E as (G1 & C1 & D1). apply IH in H as (G2 & C2 & D2). split; [|split].
      + eapply grows_trans; [eapply grows_weaken; [|exact G1]; intros k v X; exists p; cbn; auto|eapply grows_weaken; [|exact G2]; intros k v (q & Hq & X); exists q; cbn; auto].
      + intros q s im fn [<-|Hq]; intros; [eapply grows_has; [exact G2|]; eapply C1; eassumption|eapply C2; eassumption].
      + intros q fn [<-|Hq]; intros; [eapply grows_has; [exact G2|]; eapply D1; eassumption|eapply D2; eassumption].
  Qed.
  Lemma from_map_just fs p k v : flags_ok fs -> In p (w_progs w) -> from_map (new_flags no_flags fs) p k v -> just fs (fun f v => by_itself (pf_sel f) /\ stripped f v) k v.
  Proof.
    intros Hok Hp (s & fn & Hs & Hsel & He & Hg & Hf & (-> & _ & Hc & Hin)). apply get_sound in Hg as [Hg|(f & Hf' & Hfs & ->)]; [destruct s; discriminate|].
    exists f, p. cbn [fst snd]. split; [exact Hf'|]. split.
    - split; [exact Hp|]. rewrite Hfs. split; [exact Hsel|]. destruct s; [rewrite (Hok f Hf' Hfs); exact Hf| | | | |];
        cbn [strip im_func] in Hf; unfold func_name in Hf; destruct (String.eqb (im_func (pf_imm f)) ""); congruence.
    - rewrite Hfs. repeat split; auto; try apply Hc. destruct s; cbn in *; tauto.
  Qed.
  Lemma just_mono fs (g g' : pflag -> imm -> Prop) k v : (forall f v, g f v -> g' f v) -> just fs g k v -> just fs g' k v.
  Proof. intros H (f & p & A & B & C & D & E & G). exists f, p. auto 8. Qed.
  (** in mixed mode *)
  Definition mixed (fs : list pflag) : Prop := all_id (new_flags no_flags fs) = false.
  Lemma mixed_just fs tr : flags_ok fs -> mixed fs -> prepare w d fs = Some tr -> forall k v, aget keyb k tr = Some v ->
    just fs (fun f v => (other (pf_sel f) /\ exact f v) \/ (by_itself (pf_sel f) /\ stripped f v)) k v.
  Proof.
    intros Hok Hm. unfold prepare. rewrite Hm. destruct (by_others w d fs []) as [tr0|] eqn:E; [|discriminate]. intros H k v Hk.
    apply by_others_ok in E as [G1 _]. apply visit_all_ok in H as [G2 _]. destruct (proj2 G2 k v Hk) as [X|(p & Hp & X)].
    - destruct (proj2 G1 k v X) as [Y|Y]; [discriminate|]. eapply just_mono; [|exact Y]. auto.
    - eapply just_mono; [|exact (from_map_just fs p k v Hok Hp X)]. auto.
  Qed.
  Lemma sound fs tr : flags_ok fs -> prepare w d fs = Some tr -> forall k v, aget keyb k tr = Some v -> just fs (fun f v => exact f v \/ stripped f v) k v.
  Proof.
    intros Hok H k v Hk. destruct (all_id (new_flags no_flags fs)) eqn:E.
    - unfold prepare in H. rewrite E in H. apply by_ids_ok in H as [G _]. destruct (proj2 G k v Hk) as [X|X]; [discriminate|]. eapply just_mono; [|exact X]. auto.
    - eapply just_mono; [|exact (mixed_just fs tr Hok E H k v Hk)]. intros f v' [[_ X]|[_ X]]; auto.
  Qed.
  Lemma nodup_last {A B} (f : A -> B) l x : NoDup (map f l) -> In x l -> exists l1 l2, l = l1 ++ x :: l2 /\ (forall y, In y l1 -> f y <> f x) /\ forall y, In y l2 -> f y <> f x.
  Proof.
    induction l as [|a l IH]; intros Hn; [intros []|]. inversion Hn as [|? ? H1 H2]; subst. intros [->|Hin].
    - exists [], l. split; [reflexivity|]. split; [intros y []|]. intros y Hy E. apply H1. rewrite <- E. apply in_map. exact Hy.
    - destruct (IH H2 Hin) as (l1 & l2 & -> & A1 & A2). exists (a :: l1), l2. split; [reflexivity|]. split; [|exact A2]. intros y [<-|Hy]; [|auto]. intros E. apply H1. rewrite E. apply in_map. exact Hin.
  Qed.
  Lemma complete fs tr : NoDup (map pf_sel fs) -> (forall f, In f fs -> pf_sel f <> PAll) -> prepare w d fs = Some tr ->
    forall f p fn, In f fs -> asked w f p fn -> pg_entry p <> None -> can_be d p fn -> has (pg_id p, fn) tr.
  Proof.
    intros Hn Ha H f p fn Hf Hask He Hc. unfold prepare in H. destruct (all_id (new_flags no_flags fs)).
    - apply by_ids_ok in H as [_ C]. eapply C; eassumption.
    - destruct (by_others w d fs []) as [tr0|] eqn:E; [|discriminate]. apply by_others_ok in E as [G1 C1]. apply visit_all_ok in H as (G2 & C2 & _).
      assert (Hd : other (pf_sel f) \/ selb (pf_sel f)) by (specialize (Ha f Hf); destruct (pf_sel f); cbn; auto; congruence). destruct Hd as [Ho|Ho].
      + eapply grows_has; [exact G2|]. eapply C1; eassumption.
      + apply (C2 p (pf_sel f) (strip (pf_imm f)) fn); auto.
        * apply Hask.
        * destruct (ps_all (new_flags no_flags fs)) eqn:E; [|reflexivity]. exfalso. assert (X : ps_all (new_flags no_flags fs) <> None) by congruence. apply all_iff in X as [X|(g & Hg & X)]; [apply X; reflexivity|exact (Ha g Hg X)].
        * apply Hask.
        * destruct (nodup_last pf_sel fs f Hn Hf) as (l1 & l2 & E & A1 & A2). rewrite E. change (l1 ++ f :: l2) with (l1 ++ [f] ++ l2). rewrite app_assoc, new_flags_app.
          -- rewrite get_keep.
             ++ apply get_last; auto; [intros g Hg; apply Ha; rewrite E; apply in_or_app; auto|destruct (pf_sel f); cbn in *; tauto].
             ++ intros g Hg. split; [apply Ha; rewrite E; apply in_or_app; right; right; exact Hg|exact (A2 g Hg)].
          -- intros g Hg. apply Ha. rewrite E. apply in_app_or in Hg as [Hg|[<-|[]]]; apply in_or_app; [auto|right; left; reflexivity].
        * apply fname_asked; [apply Hask|apply Hask|exact Hask].
  Qed.
  (** a flag that a later one with the same selector overrides *)
  Lemma overridden l1 f l2 g l3 tr p fn : let fs := l1 ++ f :: l2 ++ g :: l3 in
    (forall h, In h fs -> pf_sel h <> PAll) -> mixed fs -> pf_sel g = pf_sel f -> selb (pf_sel f) -> In p (w_progs w) ->
    (forall h, In h (l1 ++ l2 ++ g :: l3) -> ~ asked w h p fn) -> prepare w d fs = Some tr -> ~ has (pg_id p, fn) tr.
  Proof.
    intros fs Ha Hm Hgf Hb Hp Hno H Hhas. unfold prepare in H. rewrite Hm in H. destruct (by_others w d fs []) as [tr0|] eqn:E; [|discriminate].
    apply by_others_ok in E as [G1 _]. apply visit_all_ok in H as (G2 & _ & _). unfold has in Hhas. destruct (aget keyb (pg_id p, fn) tr) as [v|] eqn:Ek; [|congruence].
    assert (Same : forall q, In q (w_progs w) -> pg_id q = pg_id p -> q = p).
    { intros q Hq Eq. assert (load w (pg_id p) = Some q) by (apply load_spec; auto). assert (load w (pg_id p) = Some p) by (apply load_spec; auto). congruence. }
    assert (Fs : forall h, In h fs -> In h (l1 ++ l2 ++ g :: l3) \/ h = f).
    { intros h Hh. unfold fs in Hh. rewrite !in_app_iff in *. cbn [In] in *. rewrite in_app_iff in Hh. cbn [In] in Hh. intuition congruence. }
    destruct (proj2 G2 _ _ Ek) as [X|(q & Hq & (s & fn' & Hs & Hsel & He & Hg & Hf & (Ekk & _ & Hc & Hin)))].
    - destruct (proj2 G1 _ _ X) as [Y|(h & q & Hh & Hask & Hi & _ & _ & Ho & _)]; [discriminate|]. cbn [fst snd] in *. rewrite (Same q (proj1 Hask) Hi) in Hask.
      destruct (Fs h Hh) as [Y| ->]; [exact (Hno h Y Hask)|]. destruct (pf_sel f); cbn in *; tauto.
    - injection Ekk as Eq <-. rewrite (Same q Hq (eq_sym Eq)) in *. clear q Hq Eq.
      assert (Hsp : s <> PAll). { intros ->. assert (X : ps_all (new_flags no_flags fs) <> None) by (cbn in Hg; congruence). apply all_iff in X as [X|(h & Hh & X)]; [apply X; reflexivity|exact (Ha h Hh X)]. }
      assert (exists h, In h (l1 ++ l2 ++ g :: l3) /\ pf_sel h = s /\ v = strip (pf_imm h)) as (h & Hh & Hhs & ->).
      { destruct (sel_dec s (pf_sel f)) as [Es|Es].
        - assert (Efs : fs = (l1 ++ f :: l2 ++ [g]) ++ l3) by (unfold fs; rewrite <- app_assoc; cbn [app]; rewrite <- app_assoc; reflexivity).
          rewrite Efs in Hg. rewrite new_flags_app in Hg by (intros h Hh; apply Ha; rewrite Efs; apply in_or_app; auto). apply get_sound in Hg as [Hg|(h & Hh & Hhs & ->)].
          + replace (l1 ++ f :: l2 ++ [g]) with ((l1 ++ f :: l2) ++ [g]) in Hg by (rewrite <- app_assoc; reflexivity). rewrite get_last in Hg.
            * injection Hg as <-. exists g. split; [rewrite !in_app_iff; cbn; auto|]. split; [congruence|reflexivity].
            * intros h Hh. apply Ha. unfold fs. rewrite in_app_iff in *. cbn [In] in *. rewrite in_app_iff. intuition.
            * congruence.
            * exact Hsp.
            * rewrite Es. destruct (pf_sel f); cbn in *; tauto.
          + exists h. split; [rewrite !in_app_iff; cbn; auto|]. auto.
        - apply get_sound in Hg as [Hg|(h & Hh & Hhs & ->)]; [destruct s; discriminate|]. destruct (Fs h Hh) as [Y| ->]; [exists h; auto|congruence]. }
      apply (Hno h Hh). split; [exact Hp|]. rewrite Hhs. split; [exact Hsel|]. destruct s; try congruence; cbn [strip im_func] in Hf; unfold func_name in Hf; destruct (String.eqb (im_func (pf_imm h)) ""); congruence.
  Qed.
  (** "*" leaves only entry functions, beside what is pinned or open *)
  Lemma star_entry fs tr : (exists f, In f fs /\ pf_sel f = PAll) -> prepare w d fs = Some tr ->
    forall k v, aget keyb k tr = Some v -> (exists p, In p (w_progs w) /\ pg_id p = fst k /\ pg_entry p = Some (snd k)) \/ exists f, In f fs /\ other (pf_sel f).
  Proof.
    intros Hall H k v Hk. assert (Ha : ps_all (new_flags no_flags fs) <> None) by (apply all_iff; auto). unfold prepare in H.
    assert (all_id (new_flags no_flags fs) = false) as Em.
    { unfold all_id. destruct (ps_ids (new_flags no_flags fs)), (ps_tags (new_flags no_flags fs)), (ps_names (new_flags no_flags fs)), (ps_all (new_flags no_flags fs)); auto; congruence. }
    rewrite Em in H. destruct (by_others w d fs []) as [tr0|] eqn:E; [|discriminate]. apply by_others_ok in E as [G1 _]. apply visit_all_ok in H as (G2 & _ & _).
    destruct (proj2 G2 _ _ Hk) as [X|(q & Hq & (s & fn & Hs & Hsel & He & Hg & Hf & (Ekk & _ & _)))].
    - destruct (proj2 G1 _ _ X) as [Y|(h & q & Hh & _ & _ & _ & _ & Ho & _)]; [discriminate|]. right. exists h. auto.
    - left. exists q. subst k. cbn. split; [exact Hq|]. split; [reflexivity|]. destruct s; [exact Hf| | | | |]; destruct Hs as [_ Hs]; congruence.
  Qed.
End W.
(** when the ids-only path is taken *)
Lemma has_mono fs : forall acc s, get acc s <> None -> get (new_flags acc fs) s <> None.
Proof.
  induction fs as [|f fs IH]; intros acc s H; [exact H|]. destruct (sel_dec (pf_sel f) PAll) as [E|E].
  - cbn [new_flags]. rewrite E. destruct s; cbn in *; congruence.
  - rewrite new_flags_cons by exact E. apply IH. rewrite get_step by exact E. destruct (sel_dec (pf_sel f) s); [|exact H]. destruct s; try discriminate; exact H.
Qed.
Lemma other_mono fs : forall acc, ps_other acc = true -> ps_other (new_flags acc fs) = true.
Proof.
  induction fs as [|f fs IH]; intros acc H; [exact H|]. cbn [new_flags]. destruct (pf_sel f); try (apply IH; cbn; auto); exact H.
Qed.
Lemma non_id_found fs f : forall acc, In f fs -> ~ is_id (pf_sel f) -> let ps := new_flags acc fs in
  ps_all ps <> None \/ ps_other ps = true \/ ps_tags ps <> [] \/ ps_names ps <> [].
Proof.
  induction fs as [|g fs IH]; intros acc; [intros []|]. intros Hin Hn. destruct (sel_dec (pf_sel g) PAll) as [E|E]; [left; cbn [new_flags]; rewrite E; discriminate|].
  destruct Hin as [->|Hin]; [|cbv zeta; rewrite new_flags_cons by exact E; apply IH; assumption].
  cbv zeta. rewrite new_flags_cons by exact E. destruct (pf_sel f) as [|i|t|n|q|q] eqn:Es; try congruence.
  - exfalso. apply Hn. exists i. reflexivity.
  - right. right. left. assert (X : get (new_flags (new_flags acc [f]) fs) (PTag t) <> None).
    { apply has_mono. rewrite get_step by congruence. destruct (sel_dec (pf_sel f) (PTag t)); congruence. }
    intros Y. cbn [get] in X. rewrite Y in X. apply X. reflexivity.
  - right. right. right. assert (X : get (new_flags (new_flags acc [f]) fs) (PName n) <> None).
    { apply has_mono. rewrite get_step by congruence. destruct (sel_dec (pf_sel f) (PName n)); congruence. }
    intros Y. cbn [get] in X. rewrite Y in X. apply X. reflexivity.
  - right. left. apply other_mono. cbn [new_flags]. rewrite Es. reflexivity.
  - right. left. apply other_mono. cbn [new_flags]. rewrite Es. reflexivity.
Qed.
Lemma mixed_iff fs f : In f fs -> ~ is_id (pf_sel f) -> mixed fs.
Proof.
  intros Hf Hn. unfold mixed, all_id. destruct (non_id_found fs f no_flags Hf Hn) as [H|[H|[H|H]]]; destruct (ps_ids (new_flags no_flags fs)), (ps_tags (new_flags no_flags fs)), (ps_names (new_flags no_flags fs)), (ps_all (new_flags no_flags fs)); auto; try congruence.
  rewrite H. reflexivity.
Qed.
Lemma ids_inv fs : forall acc, ps_all acc = None -> ps_other acc = false -> ps_tags acc = [] -> ps_names acc = [] -> (fs <> [] \/ ps_ids acc <> []) -> (forall f, In f fs -> is_id (pf_sel f)) -> all_id (new_flags acc fs) = true.
Proof.
  induction fs as [|f fs IH]; intros acc A B C D E H.
  - cbn. unfold all_id. rewrite A, B, C, D. destruct (ps_ids acc); [destruct E; congruence|reflexivity].
  - destruct (H f ltac:(left; reflexivity)) as [i Hi]. cbn [new_flags]. rewrite Hi. apply IH; cbn; auto; [|intros g Hg; apply H; right; exact Hg].
    right. intros X. assert (Y : aget Z.eqb i (aput Z.eqb i (strip (pf_imm f)) (ps_ids acc)) = Some (strip (pf_imm f))) by (rewrite (aget_aput _ Zeqb_ok), Z.eqb_refl; reflexivity). rewrite X in Y. discriminate.
Qed.
Lemma not_mixed fs : fs <> [] -> (forall f, In f fs -> is_id (pf_sel f)) -> all_id (new_flags no_flags fs) = true.
Proof. intros H1 H2. apply ids_inv; auto. Qed.
