(** * Proofs about M_Ghook. *)
From Coq Require Import List Bool ZArith Lia.
From Verif Require Import M_Go P_Go M_Ebpf M_FnArgs M_Ghook.
Import ListNotations.
Open Scope list_scope.
Open Scope Z_scope.

Definition of_fn (ip : Z) (hs : list hook) : list hook := filter (fun h => h_ip h =? ip) hs.
Lemma trace_ip fs gs : forall h, In h (fst (trace_graphs fs gs)) -> exists g, In g gs /\ gf_root g = false /\ h_ip h = gf_ip g.
Proof.
  induction gs as [|g gs IH]; intros h; cbn [trace_graphs]; [intros []|].
  destruct (trace_graphs fs gs) as [hs szs] eqn:E. cbn [fst] in IH.
  destruct (gf_root g) eqn:Er; [intros H; destruct (IH h H) as (x & ? & ? & ?); exists x; cbn; auto|].
  unfold trace_graph. destruct fs; cbn [negb orb].
  - destruct (inject_args (gf_prms g) (gf_ret g) true) as [c n]. intros [<-|H]; [exists g; cbn; auto|]. destruct (IH h H) as (x & ? & ? & ?); exists x; cbn; auto.
  - destruct (inject_args (gf_prms g) (gf_ret g) false) as [c n], (inject_args (gf_prms g) (gf_ret g) true) as [c' n'].
    intros [<-|[<-|H]]; [exists g; cbn; auto|exists g; cbn; auto|]. destruct (IH h H) as (x & ? & ? & ?); exists x; cbn; auto.
Qed.
Lemma of_fn_none fs gs ip : ~ In ip (map gf_ip gs) -> of_fn ip (fst (trace_graphs fs gs)) = [].
Proof.
  intros H. unfold of_fn. destruct (filter _ _) as [|h l] eqn:E; [reflexivity|]. exfalso.
  assert (X : In h (h :: l)) by (left; reflexivity). rewrite <- E in X. apply filter_In in X. destruct X as [X1 X2]. apply Z.eqb_eq in X2.
  destruct (trace_ip _ _ _ X1) as (g & Hg & _ & Eg). apply H. apply in_map_iff. exists g. split; [congruence|exact Hg].
Qed.
(** the hooks and sizes of one function *)
Definition hooks_of (fs : bool) (g : gfn) : list hook :=
  if gf_root g then [] else if fs then [fst (trace_graph g false true (0, 0))] else [fst (trace_graph g true false (0, 0)); fst (trace_graph g false false (0, 0))].
Definition sizes_of (fs : bool) (g : gfn) : Z * Z :=
  if gf_root g then (0, 0) else if fs then snd (trace_graph g false true (0, 0))
  else (fst (snd (trace_graph g true false (0, 0))), snd (snd (trace_graph g false false (0, 0)))).
Lemma trace_one fs gs g : NoDup (map gf_ip gs) -> In g gs ->
  of_fn (gf_ip g) (fst (trace_graphs fs gs)) = hooks_of fs g /\ aget Z.eqb (gf_ip g) (snd (trace_graphs fs gs)) = Some (sizes_of fs g).
Proof.
  induction gs as [|x gs IH]; intros Hn Hi; [destruct Hi|]. cbn [map] in Hn. inversion Hn as [|? ? Hx Hn']; subst.
  pose proof (of_fn_none fs gs (gf_ip g)) as Hz. specialize (IH Hn'). cbn [trace_graphs].
  destruct (trace_graphs fs gs) as [hs szs] eqn:E. cbn [fst snd] in *.
  destruct Hi as [->|Hi].
  - specialize (Hz Hx). clear IH. unfold of_fn in *. unfold hooks_of, sizes_of.
    destruct (gf_root g); cbn [fst snd aget]; [rewrite Z.eqb_refl; auto|].
    unfold trace_graph. destruct fs; cbn [negb orb].
    + destruct (inject_args (gf_prms g) (gf_ret g) true) as [c n]. cbn [fst snd filter h_ip aget]. rewrite Z.eqb_refl, Hz. auto.
    + destruct (inject_args (gf_prms g) (gf_ret g) false) as [c n], (inject_args (gf_prms g) (gf_ret g) true) as [c' n'].
      cbn [fst snd filter h_ip aget]. rewrite Z.eqb_refl, Hz. auto.
  - specialize (IH Hi). assert (Hne : gf_ip x <> gf_ip g) by (intros X; apply Hx; rewrite X; apply in_map; exact Hi).
    assert (N : (gf_ip x =? gf_ip g) = false) by (apply Z.eqb_neq; exact Hne).
    assert (N' : (gf_ip g =? gf_ip x) = false) by (apply Z.eqb_neq; congruence).
    destruct IH as [I1 I2]. unfold of_fn in *.
    destruct (gf_root x); cbn [fst snd aget]; [rewrite N'; auto|].
    unfold trace_graph. destruct fs; cbn [negb orb].
    + destruct (inject_args (gf_prms x) (gf_ret x) true) as [c n]. cbn [fst snd filter h_ip aget]. rewrite N, N'. auto.
    + destruct (inject_args (gf_prms x) (gf_ret x) false) as [c n], (inject_args (gf_prms x) (gf_ret x) true) as [c' n'].
      cbn [fst snd filter h_ip aget]. rewrite N, N'. auto.
Qed.
From Verif Require Import P_FnArgs P_FnArgs2.
Lemma gen_size prms ret w : snd (gen_output_fn_args prms ret w) = tot prms + (if w then cap_size ret else 0).
Proof.
  unfold gen_output_fn_args. pose proof (cap_params_off prms 0 0) as H. destruct (cap_params 0 0 prms) as [c off]. cbn [snd] in H.
  fold (tot prms) in H. destruct w; cbn [negb snd]; lia.
Qed.
Lemma inject_size prms ret w : snd (inject_args prms ret w) = tot prms + (if w then cap_size ret else 0).
Proof.
  pose proof (gen_size prms ret w) as G. unfold inject_args. destruct prms as [|p prms], w; try (destruct (gen_output_fn_args _ _ _); exact G); reflexivity.
Qed.
Lemma inject_code prms ret w : (prms <> [] \/ w = true) ->
  fst (inject_args prms ret w) = Some (fst (gen_output_fn_args prms ret w)) /\ snd (inject_args prms ret w) = snd (gen_output_fn_args prms ret w).
Proof. intros H. unfold inject_args. destruct prms as [|p prms], w; try (destruct (gen_output_fn_args _ _ _); split; reflexivity). destruct H; congruence. Qed.
Lemma out_ok g sz exit d junk n : (if (exit : bool) then snd sz else fst sz) = n -> n = tot (gf_prms g) + (if exit then cap_size (gf_ret g) else 0) -> Z.of_nat (List.length d) = n ->
  output_info g sz exit (d ++ junk) = output_fn_args (gf_np g) (gf_prms g) (gf_ret g) exit d.
Proof.
  intros E En Hd. unfold output_info. rewrite E. destruct (Z.eqb_spec n 0) as [E0|E0].
  - destruct exit; [pose proof (cap_size_pos (gf_ret g)); pose proof (tot_nonneg (gf_prms g)); lia|].
    destruct (gf_prms g) as [|p l] eqn:Ep; [|pose proof (tot_ge8 p l); lia]. reflexivity.
  - rewrite app_length. destruct (Z.ltb_spec (Z.of_nat (List.length d + List.length junk)) n); [lia|].
    rewrite firstn_app. replace (Z.to_nat n - List.length d)%nat with 0%nat by lia. rewrite firstn_O, app_nil_r, firstn_all2 by lia. reflexivity.
Qed.
Lemma shown fs gs g h r sz d junk : NoDup (map gf_ip gs) -> In g gs -> In h (of_fn (gf_ip g) (fst (trace_graphs fs gs))) ->
  (fs = false \/ ev_entry h r = false) -> aget Z.eqb (gf_ip g) (snd (trace_graphs fs gs)) = Some sz -> Z.of_nat (List.length d) = h_buf h ->
  let exit := negb (ev_entry h r) in
  output_info g sz exit (d ++ junk) = output_fn_args (gf_np g) (gf_prms g) (gf_ret g) exit d /\
  ((gf_prms g <> [] \/ exit = true) -> h_code h = Some (fst (gen_output_fn_args (gf_prms g) (gf_ret g) exit)) /\ h_buf h = snd (gen_output_fn_args (gf_prms g) (gf_ret g) exit)) /\
  h_nr h = Z.of_nat (List.length (gf_prms g)) /\ (exit = true -> h_withret h = true).
Proof.
  intros Hn Hi Hh Hf Hs Hd. destruct (trace_one fs gs g Hn Hi) as [H1 H2]. rewrite H1 in Hh. rewrite H2 in Hs. injection Hs as <-.
  unfold hooks_of, sizes_of in *. destruct (gf_root g); [destruct Hh|]. unfold trace_graph in *.
  pose proof (inject_size (gf_prms g) (gf_ret g) true) as St. pose proof (inject_size (gf_prms g) (gf_ret g) false) as Sf.
  pose proof (inject_code (gf_prms g) (gf_ret g) true) as Ct. pose proof (inject_code (gf_prms g) (gf_ret g) false) as Cf.
  destruct fs; cbn [negb orb] in *.
  - destruct (inject_args (gf_prms g) (gf_ret g) true) as [c n]. cbn [fst snd] in *. destruct Hh as [<-|[]].
    destruct Hf as [Hf|Hf]; [discriminate|]. cbn [ev_entry h_mode h_buf h_code h_nr h_withret] in *. apply negb_false_iff in Hf. subst r. cbn [negb].
    split; [apply (out_ok _ _ true d junk n); auto|]. split; [|auto]. intros X. destruct (Ct (or_intror eq_refl)). auto.
  - destruct (inject_args (gf_prms g) (gf_ret g) true) as [c n], (inject_args (gf_prms g) (gf_ret g) false) as [c' n']. cbn [fst snd] in *.
    destruct Hh as [<-|[<-|[]]]; cbn [ev_entry h_mode h_buf h_code h_nr h_withret negb] in *.
    + split; [apply (out_ok _ _ false d junk n'); auto|]. split; [|auto]. intros X. destruct (Cf X). auto.
    + split; [apply (out_ok _ _ true d junk n); auto|]. split; [|auto]. intros X. destruct (Ct (or_intror eq_refl)). auto.
Qed.
Lemma session_entry gs g sz data : NoDup (map gf_ip gs) -> In g gs -> gf_root g = false -> aget Z.eqb (gf_ip g) (snd (trace_graphs true gs)) = Some sz ->
  output_info g sz false data = Some ([], None).
Proof.
  intros Hn Hi Hr Hs. destruct (trace_one true gs g Hn Hi) as [_ H2]. rewrite H2 in Hs. injection Hs as <-. unfold sizes_of. rewrite Hr.
  unfold trace_graph. destruct (inject_args _ _ _). reflexivity.
Qed.
Lemma modes fs gs g : NoDup (map gf_ip gs) -> In g gs ->
  map h_mode (of_fn (gf_ip g) (fst (trace_graphs fs gs))) = if gf_root g then [] else if fs then [HSession] else [HEntry; HExit].
Proof.
  intros Hn Hi. destruct (trace_one fs gs g Hn Hi) as [-> _]. unfold hooks_of, trace_graph. destruct (gf_root g); [reflexivity|].
  destruct fs; cbn [negb orb]; [destruct (inject_args _ _ _); reflexivity|]. destruct (inject_args _ _ false), (inject_args _ _ true); reflexivity.
Qed.
