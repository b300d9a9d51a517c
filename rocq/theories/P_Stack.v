(** * Proofs about function stacks. *)
From Coq Require Import List Bool String Ascii ZArith Lia.
From Verif Require Import M_Go P_Go M_Flags M_Stack S_Stack.
Import ListNotations.
Open Scope list_scope.
Open Scope Z_scope.

Lemma prefix_iff p : forall s, has_prefix p s = true <-> exists r, s = (p ++ r)%string.
Proof.
  induction p as [|a p IH]; intros s; cbn [has_prefix append].
  - split; [intros _; exists s; reflexivity|reflexivity].
  - destruct s as [|b s].
    + split; [discriminate|]. intros [r H]. discriminate.
    + rewrite andb_true_iff, IH. split.
      * intros [E [r ->]]. apply Ascii.eqb_eq in E. subst. exists r. reflexivity.
      * intros [r H]. injection H as -> ->. split; [apply Ascii.eqb_refl|]. exists r. reflexivity.
Qed.
Lemma entry_iff n : is_entry n = true <-> tracing_fn n.
Proof. unfold is_entry, tracing_fn. rewrite orb_true_iff, !prefix_iff. tauto. Qed.

Lemma NoDup_app_one (l : list Z) x : NoDup l -> ~ In x l -> NoDup (l ++ [x]).
Proof.
  intros Hl Hx. induction Hl as [|y l Hy Hl IH]; cbn [app]; [constructor; [intros []|constructor]|]. constructor.
  - intros F. apply in_app_or in F. destruct F as [F|[F|[]]]; [exact (Hy F)|]. apply Hx. left. symmetry. exact F.
  - apply IH. intros F. apply Hx. right. exact F.
Qed.

Section Stack.
  Variable hash : list Z -> Z.
  Variable fname : Z -> string.
  Variable line : bool -> Z -> string.
  Variable maxstack : nat.
  Variables (verbose flame : bool).
  Notation frames := (frames fname line verbose).
  Notation bucket := (fun s => hash s mod 256).

  Lemma frames_zeros sym k : forall skip acc, frames sym skip (repeat 0 k) acc = acc.
  Proof. induction k as [|k IH]; intros; cbn [repeat M_Stack.frames Z.eqb]; [reflexivity|apply IH]. Qed.
  Lemma frames_app sym k l : forall skip acc, frames sym skip (l ++ repeat 0 k) acc = frames sym skip l acc.
  Proof.
    induction l as [|x l IH]; intros; cbn [app M_Stack.frames]; [apply frames_zeros|].
    destruct (x =? 0); [apply IH|]. destruct (skip && negb verbose); apply IH.
  Qed.
  Lemma frames_all sym l : forall skip acc, ~ In 0 l -> skip && negb verbose = false -> frames sym skip l acc = acc ++ map (line sym) l.
  Proof.
    induction l as [|x l IH]; intros skip acc Hz Hs; cbn [M_Stack.frames map]; [symmetry; apply app_nil_r|].
    destruct (Z.eqb_spec x 0) as [->|]; [exfalso; apply Hz; left; reflexivity|]. rewrite Hs.
    rewrite IH by (cbn [In] in Hz; tauto). rewrite <- app_assoc. reflexivity.
  Qed.
  Lemma frames_ok sym l : ~ In 0 l -> exists fr, to_show fname verbose l fr /\ forall acc, frames sym true l acc = acc ++ map (line sym) fr.
  Proof.
    intros Hz. assert (Hv : verbose = true \/ verbose = false) by (destruct verbose; auto). destruct Hv as [Ev|Ev].
    - exists l. split; [unfold to_show; rewrite Ev; reflexivity|]. intros acc. apply frames_all; [exact Hz|]. rewrite Ev. reflexivity.
    - unfold to_show. induction l as [|x l IH].
      + exists []. split; [rewrite Ev; right; split; [reflexivity|intros x []]|]. intros acc. symmetry. apply app_nil_r.
      + cbn [In] in Hz. destruct (is_entry (fname x)) eqn:Ee.
        * exists l. split.
          -- rewrite Ev. left. exists [], x. split; [reflexivity|]. split; [apply entry_iff; exact Ee|intros y []].
          -- intros acc. cbn [M_Stack.frames]. destruct (Z.eqb_spec x 0); [tauto|]. rewrite Ev at 1. cbn [negb andb]. rewrite Ee. apply frames_all; [tauto|reflexivity].
        * destruct IH as [fr [Hs Hf]]; [tauto|]. exists fr. rewrite Ev in Hs. split.
          -- assert (Hn : ~ tracing_fn (fname x)) by (rewrite <- entry_iff, Ee; discriminate). rewrite Ev.
             destruct Hs as [[pre [t [-> [Ht Hp]]]]|[-> Hp]].
             ++ left. exists (x :: pre), t. split; [reflexivity|]. split; [exact Ht|]. intros y [<-|Hy]; auto.
             ++ right. split; [reflexivity|]. intros y [<-|Hy]; auto.
          -- intros acc. cbn [M_Stack.frames]. destruct (Z.eqb_spec x 0); [tauto|]. rewrite Ev at 1. cbn [negb andb]. rewrite Ee. apply Hf.
  Qed.

  Notation fs_output := (fs_output fname line maxstack verbose flame).
  Lemma output_own s m id h ips : stack_ok maxstack ips -> f_stack s = [] -> aget Z.eqb id m = Some (h, ips) ->
    exists fr out s', fs_output s m id = (out, s', adel Z.eqb id m) /\ to_show fname verbose ips fr /\ shows line flame fr out.
  Proof.
    intros [Hl Hz] Hs Hm. unfold M_Stack.fs_output, fs_get, map_lookup. rewrite Hm. rewrite Hs.
    replace (firstn maxstack (ips ++ repeat 0 maxstack)) with (ips ++ repeat 0 (maxstack - List.length ips)).
    2:{ rewrite firstn_app, firstn_all2 by exact Hl. f_equal. replace maxstack with (maxstack - List.length ips + List.length ips)%nat at 3 by lia.
        rewrite repeat_app. rewrite firstn_app, repeat_length, Nat.sub_diag, firstn_O, app_nil_r. symmetry. apply firstn_all2. rewrite repeat_length. lia. }
    destruct (frames_ok flame ips Hz) as [fr [Hsh Hfr]]. rewrite frames_app, Hfr. cbn [app f_stack].
    exists fr. unfold shows. destruct fr as [|x fr]; cbn [map].
    - eexists. eexists. repeat split; auto.
    - destruct flame; eexists; eexists; repeat split; auto.
  Qed.
  Lemma output_none s m id : f_stack s = [] -> aget Z.eqb id m = None -> exists s', fs_output s m id = (([], None), s', m).
  Proof. intros Hs Hm. unfold M_Stack.fs_output, fs_get, map_lookup. rewrite Hm. rewrite Hs. cbn [f_stack]. eexists. reflexivity. Qed.

  (** [str]: nothing was skipped, so every bucket in use belongs to a waiting event. *)
  Record inv (str : bool) (rec : list Z -> Prop) (y : sys) (q : list (list Z)) : Prop := {
    i_q : Forall2 (fun e s => snd e = s /\ ((str = false /\ fst e = -17) \/ (fst e = bucket s /\ aget Z.eqb (fst e) (y_map y) = Some (hash s, s)))) (y_queue y) q;
    i_nd : NoDup (map bucket q);
    i_keys : NoDup (map fst (y_map y));
    i_fs : f_stack (y_fs y) = [];
    i_rec : forall id h s, aget Z.eqb id (y_map y) = Some (h, s) -> h = hash s /\ rec s;
    i_qok : forall s, In s q -> stack_ok maxstack s;
    i_str : str = true -> forall id, aget Z.eqb id (y_map y) <> None -> In id (map bucket q) }.

  Notation step := (M_Stack.step hash fname line maxstack verbose flame).
  Notation run := (M_Stack.run hash fname line maxstack verbose flame).
  Definition good (str : bool) (r : list Z * (list string * option (list string))) : Prop :=
    (exists fr, to_show fname verbose (fst r) fr /\ shows line flame fr (snd r)) \/ (str = false /\ snd r = ([], None)).

  Lemma run_ok str (rec : list Z -> Prop) : (str = false -> forall s s', rec s -> rec s' -> hash s = hash s' -> s = s') ->
    forall os y q, inv str rec y q -> (forall s, In (ORec s) os -> rec s /\ stack_ok maxstack s) -> (str = true -> ~ In OSkip os) -> no_clash hash os q ->
    map fst (run y os) = handled os q /\ Forall (good str) (run y os).
  Proof.
    intros Hcol. induction os as [|o os IH]; intros y q Hi Hok Hsk Hnc; [split; [reflexivity|constructor]|].
    assert (Hok' : forall s, In (ORec s) os -> rec s /\ stack_ok maxstack s) by (intros; apply Hok; right; assumption).
    assert (Hsk' : str = true -> ~ In OSkip os) by (intros E F; apply (Hsk E); right; exact F).
    destruct Hi as [Hq Hnd Hk Hf Hr Hqok Hst]. destruct o as [s| |].
    - cbn [M_Stack.run M_Stack.step]. cbn [no_clash handled] in *. destruct Hnc as [Hc Hnc]. destruct (Hok s (or_introl eq_refl)) as [Hrs Hss].
      assert (Hfresh : ~ In (bucket s) (map bucket q)). { intros F. apply in_map_iff in F. destruct F as [s' [E F]]. exact (Hc s' F E). }
      assert (Hnd' : NoDup (map bucket (q ++ [s]))).
      { rewrite map_app. cbn [map]. apply NoDup_app_one; assumption. }
      assert (Hqok' : forall x, In x (q ++ [s]) -> stack_ok maxstack x). { intros x Hx. apply in_app_or in Hx. destruct Hx as [Hx|[<-|[]]]; auto. }
      unfold get_stackid. destruct (aget Z.eqb (hash s mod 256) (y_map y)) as [[h' s']|] eqn:E.
      + destruct (Hr _ _ _ E) as [Hh Hrs'].
        assert (Es : str = false). { destruct str; [|reflexivity]. exfalso. apply Hfresh. apply Hst; [reflexivity|]. rewrite E. discriminate. }
        destruct (Z.eqb_spec h' (hash s)) as [E2|E2].
        * assert (s' = s) by (apply (Hcol Es); congruence). subst s'.
          apply IH; auto. split; cbn [y_map y_fs y_queue]; auto.
          -- apply Forall2_app; [exact Hq|]. constructor; [|constructor]. cbn [fst snd]. split; [reflexivity|]. right. split; [reflexivity|]. rewrite E, E2. reflexivity.
          -- intros F. congruence.
        * apply IH; auto. split; cbn [y_map y_fs y_queue]; auto.
          -- apply Forall2_app; [exact Hq|]. constructor; [|constructor]. cbn [fst snd]. split; [reflexivity|]. left. split; [exact Es|reflexivity].
          -- intros F. congruence.
      + assert (Hneq : forall x, In x q -> hash x mod 256 <> hash s mod 256) by exact Hc.
        apply IH; auto. split; cbn [y_map y_fs y_queue]; auto.
        * apply Forall2_app.
          -- clear - Hq E. induction Hq as [|e s' l l' [H1 H2] Hq IHq]; constructor; [|exact IHq]. split; [exact H1|].
             destruct H2 as [H2|[H2 H3]]; [left; exact H2|]. right. split; [exact H2|]. rewrite (aget_aput Z.eqb Zeqb_ok).
             destruct (Z.eqb_spec (fst e) (hash s mod 256)) as [F|F]; [rewrite F in H3; congruence|]. exact H3.
          -- constructor; [|constructor]. cbn [fst snd]. split; [reflexivity|]. right. split; [reflexivity|]. rewrite (aget_aput Z.eqb Zeqb_ok), Z.eqb_refl. reflexivity.
        * apply NoDup_aput; [exact Zeqb_ok|exact Hk].
        * intros id h x. rewrite (aget_aput Z.eqb Zeqb_ok). destruct (Z.eqb_spec id (hash s mod 256)).
          -- intros F. injection F as <- <-. split; [reflexivity|exact Hrs].
          -- apply Hr.
        * intros Es id. rewrite (aget_aput Z.eqb Zeqb_ok), map_app. intros F. apply in_or_app. destruct (Z.eqb_spec id (hash s mod 256)) as [E9|E9].
          -- right. left. symmetry. exact E9.
          -- left. apply Hst; assumption.
    - cbn [M_Stack.run M_Stack.step]. cbn [no_clash handled] in *. inversion Hq as [Eq1 Eq2|[id ips] s l l' [H1 H2] Hq' Eq1 Eq2]; subst.
      + cbn [tl] in Hnc. apply IH; auto. split; auto.
      + cbn [tl fst snd map] in *. rename ips into s. inversion Hnd as [|? ? Hni Hnd']; subst.
        destruct H2 as [[Es ->]|[-> H3]].
        * cbn [Z.leb Z.compare]. edestruct (IH {| y_map := y_map y; y_fs := fs_reset (y_fs y); y_queue := l |} l') as [IA IB]; auto.
          -- split; cbn [y_map y_fs y_queue fs_reset f_stack]; auto. intros x Hx. apply Hqok. right. exact Hx. intros F. congruence.
          -- split; [cbn [map fst]; f_equal; exact IA|]. constructor; [|exact IB]. right. split; [exact Es|reflexivity].
        * assert (Hge : (0 <=? hash s mod 256) = true) by (apply Z.leb_le; apply Z.mod_pos_bound; lia). rewrite Hge.
          destruct (output_own (y_fs y) (y_map y) _ _ _ (Hqok s (or_introl eq_refl)) Hf H3) as [fr [out [s' [Eo [Hsh Hout]]]]]. rewrite Eo.
          edestruct (IH {| y_map := adel Z.eqb (hash s mod 256) (y_map y); y_fs := fs_reset s'; y_queue := l |} l') as [IA IB]; auto.
          -- split; cbn [y_map y_fs y_queue fs_reset f_stack]; auto.
             ++ clear - Hq' Hni Hk. induction Hq' as [|e x l l' [H1 H2] Hq IHq]; constructor.
                ** split; [exact H1|]. destruct H2 as [H2|[H2 H3]]; [left; exact H2|]. right. split; [exact H2|]. rewrite (aget_adel Z.eqb Zeqb_ok) by exact Hk.
                   destruct (Z.eqb_spec (fst e) (hash s mod 256)) as [F|F]; [|exact H3]. exfalso. apply Hni. left. rewrite <- F. symmetry. exact H2.
                ** apply IHq. intros F. apply Hni. right. exact F.
             ++ apply NoDup_adel. exact Hk.
             ++ intros id h x. rewrite (aget_adel Z.eqb Zeqb_ok) by exact Hk. destruct (Z.eqb id (hash s mod 256)); [discriminate|]. apply Hr.
             ++ intros x Hx. apply Hqok. right. exact Hx.
             ++ intros Es id. rewrite (aget_adel Z.eqb Zeqb_ok) by exact Hk. destruct (Z.eqb_spec id (hash s mod 256)) as [E|E]; [congruence|]. intros F.
                destruct (Hst Es id F) as [F2|F2]; [congruence|exact F2].
          -- split; [cbn [map fst]; f_equal; exact IA|]. constructor; [|exact IB]. left. exists fr. split; assumption.
    - assert (Es : str = false). { destruct str; [|reflexivity]. exfalso. apply (Hsk eq_refl). left. reflexivity. }
      cbn [M_Stack.run M_Stack.step]. cbn [no_clash handled] in *. apply IH; auto. split; cbn [y_map y_fs y_queue]; auto.
      + inversion Hq; cbn [tl]; [constructor|assumption].
      + destruct q; cbn [tl map] in *; [constructor|]. inversion Hnd; assumption.
      + intros x Hx. apply Hqok. destruct q; [destruct Hx|right; exact Hx].
      + intros F. congruence.
  Qed.
  Lemma inv0 str (rec : list Z -> Prop) : inv str rec (sys0 maxstack) [].
  Proof.
    split; cbn [y_map y_fs y_queue sys0 f_stack new_fnstack map aget].
    - constructor.
    - constructor.
    - constructor.
    - reflexivity.
    - intros id h s F. discriminate.
    - intros s [].
    - intros _ id F. congruence.
  Qed.
End Stack.

Section Final.
  Variable hash : list Z -> Z.
  Variable fname : Z -> string.
  Variable line : bool -> Z -> string.
  Variable maxstack : nat.
  Variables (verbose flame : bool).
  Notation run := (run hash fname line maxstack verbose flame (sys0 maxstack)).

  Lemma own_or_none os : ops_ok maxstack os -> no_clash hash os [] -> no_collision hash os ->
    map fst (run os) = handled os [] /\
    Forall (fun r => (exists fr, to_show fname verbose (fst r) fr /\ shows line flame fr (snd r)) \/ snd r = ([], None)) (run os).
  Proof.
    intros Hok Hnc Hcol.
    destruct (run_ok hash fname line maxstack verbose flame false (fun s => In (ORec s) os)) with (os := os) (y := sys0 maxstack) (q := @nil (list Z)) as [A B]; auto.
    - apply inv0.
    - discriminate.
    - split; [exact A|]. eapply Forall_impl; [|exact B]. intros r [H|[_ H]]; auto.
  Qed.
  Lemma own_stack os : ops_ok maxstack os -> ~ In OSkip os -> no_clash hash os [] ->
    map fst (run os) = handled os [] /\ Forall (fun r => exists fr, to_show fname verbose (fst r) fr /\ shows line flame fr (snd r)) (run os).
  Proof.
    intros Hok Hsk Hnc.
    destruct (run_ok hash fname line maxstack verbose flame true (fun _ => True)) with (os := os) (y := sys0 maxstack) (q := @nil (list Z)) as [A B]; auto.
    - discriminate.
    - apply inv0.
    - split; [exact A|]. eapply Forall_impl; [|exact B]. intros r [H|[H _]]; [exact H|discriminate].
  Qed.

  Notation fs_output := (fs_output fname line maxstack verbose flame).
  Lemma bpos s : (0 <=? hash s mod 256) = true.
  Proof. apply Z.leb_le. apply Z.mod_pos_bound. lia. Qed.
  Lemma second_event s : stack_ok maxstack s -> exists out, run [ORec s; ORec s; OHandle; OHandle] = [(s, out); (s, ([], None))].
  Proof.
    intros Hs. cbn [M_Stack.run M_Stack.step sys0 y_map y_fs y_queue]. unfold get_stackid. cbn [aget aput app y_map y_fs y_queue]. rewrite Z.eqb_refl, Z.eqb_refl. cbn [y_map y_queue y_fs]. rewrite bpos.
    destruct (output_own hash fname line maxstack verbose flame (new_fnstack maxstack) [(hash s mod 256, (hash s, s))] (hash s mod 256) (hash s) s Hs eq_refl) as [fr [out [s' [E _]]]];
      [cbn [aget]; rewrite Z.eqb_refl; reflexivity|].
    rewrite E. cbn [y_map y_queue y_fs adel filter fst]. rewrite bpos. cbn [adel]. rewrite Z.eqb_refl.
    destruct (output_none fname line maxstack verbose flame (fs_reset s') [] (hash s mod 256) eq_refl eq_refl) as [s'' E2]. rewrite E2. exists out. reflexivity.
  Qed.
  Lemma foreign_stack s s' : stack_ok maxstack s -> stack_ok maxstack s' -> hash s mod 256 = hash s' mod 256 ->
    exists out1 out2 fr, run [ORec s; ORec s; OHandle; ORec s'; OHandle; OHandle] = [(s, out1); (s, out2); (s', ([], None))] /\
      to_show fname verbose s' fr /\ shows line flame fr out2.
  Proof.
    intros Hs Hs' Hh. cbn [M_Stack.run M_Stack.step sys0 y_map y_fs y_queue]. unfold get_stackid at 1. cbn [aget aput app y_map y_fs y_queue].
    unfold get_stackid at 1. cbn [aget aput app y_map y_fs y_queue]. rewrite Z.eqb_refl, Z.eqb_refl. cbn [y_map y_queue y_fs]. rewrite bpos.
    destruct (output_own hash fname line maxstack verbose flame (new_fnstack maxstack) [(hash s mod 256, (hash s, s))] (hash s mod 256) (hash s) s Hs eq_refl) as [fr [out [t [E _]]]];
      [cbn [aget]; rewrite Z.eqb_refl; reflexivity|].
    rewrite E. cbn [y_map y_queue y_fs adel]. rewrite Z.eqb_refl. unfold get_stackid. cbn [aget aput app y_map y_fs y_queue]. rewrite bpos. rewrite Hh.
    destruct (output_own hash fname line maxstack verbose flame (fs_reset t) [(hash s' mod 256, (hash s', s'))] (hash s' mod 256) (hash s') s' Hs' eq_refl) as [fr2 [out2 [t2 [E2 [Hsh Hout]]]]];
      [cbn [aget]; rewrite Z.eqb_refl; reflexivity|].
    rewrite E2. cbn [y_map y_queue y_fs adel]. rewrite Z.eqb_refl. rewrite bpos.
    destruct (output_none fname line maxstack verbose flame (fs_reset t2) [] (hash s' mod 256) eq_refl eq_refl) as [t3 E3]. rewrite E3.
    exists out, out2, fr2. auto.
  Qed.
  Lemma dropped_event s s' : stack_ok maxstack s' -> hash s mod 256 = hash s' mod 256 -> hash s <> hash s' -> forall n,
    run (ORec s :: OSkip :: List.concat (repeat [ORec s'; OHandle] n)) = repeat (s', ([], None)) n.
  Proof.
    intros Hs Hh Hne n. cbn [M_Stack.run M_Stack.step sys0 y_map y_fs y_queue]. unfold get_stackid at 1. cbn [aget aput app y_map y_fs y_queue tl].
    assert (G : forall n fs, M_Stack.run hash fname line maxstack verbose flame {| y_map := [(hash s mod 256, (hash s, s))]; y_fs := fs; y_queue := [] |}
       (List.concat (repeat [ORec s'; OHandle] n)) = repeat (s', ([], None)) n).
    { clear n. induction n as [|n IH]; intros fs; [reflexivity|]. cbn [repeat List.concat app M_Stack.run M_Stack.step y_map y_fs y_queue].
      unfold get_stackid at 1. cbn [aget]. rewrite <- Hh. rewrite Z.eqb_refl. destruct (Z.eqb_spec (hash s) (hash s')); [congruence|].
      cbn [app y_queue y_map y_fs Z.leb Z.compare]. f_equal. apply IH. }
    apply G.
  Qed.
End Final.

Lemma no_trampoline hash fname line maxstack flame s : stack_ok maxstack s -> (forall x, In x s -> ~ tracing_fn (fname x)) ->
  run hash fname line maxstack false flame (sys0 maxstack) [ORec s; OHandle] = [(s, ([], None))].
Proof.
  intros Hs Hn. cbn [run step sys0 y_map y_fs y_queue]. unfold get_stackid. cbn [aget aput app y_map y_fs y_queue]. rewrite bpos.
  destruct (output_own hash fname line maxstack false flame (new_fnstack maxstack) [(hash s mod 256, (hash s, s))] (hash s mod 256) (hash s) s Hs eq_refl) as [fr [out [t [E [Hsh Hout]]]]];
    [cbn [aget]; rewrite Z.eqb_refl; reflexivity|].
  rewrite E. do 2 f_equal. cbn [to_show] in Hsh. destruct Hsh as [[pre [x [-> [Ht _]]]]|[-> _]].
  - exfalso. apply (Hn x); [|exact Ht]. apply in_or_app. right. left. reflexivity.
  - exact Hout.
Qed.
