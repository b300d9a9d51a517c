(** * Proofs about the search for debug files *)
From Coq Require Import List Bool String Ascii.
From Verif Require Import M_Dbg S_Dbg.
Import ListNotations.
Open Scope string_scope.

Lemma first_file_spec f l : match first_file f l with
  | VFound p => exists pre post, l = (pre ++ p :: post)%list /\ f p = true /\ forall q, In q pre -> f q = false
  | VNotFound => forall q, In q l -> f q = false
  | _ => False end.
Proof.
  induction l as [|p l IH]; cbn [first_file]; [intros q []|]. destruct (f p) eqn:E.
  - exists [], l. repeat split; [exact E|intros q []].
  - destruct (first_file f l) as [q| | |]; try exact IH.
    + destruct IH as (pre & post & -> & H1 & H2). exists (p :: pre), post. repeat split; [exact H1|]. intros x [<-|Hx]; [exact E|apply H2; exact Hx].
    + intros x [<-|Hx]; [exact E|apply IH; exact Hx].
Qed.

Lemma dashes_same a b : no_dash b -> dashes a = b <-> same_name a b.
Proof.
  revert b. induction a as [|x a IH]; intros b Hb; destruct b as [|y b]; cbn; try (split; [discriminate|tauto]); [tauto|].
  destruct Hb as [Hy Hb]. specialize (IH b Hb). destruct (Ascii.eqb_spec x "-") as [->|Hx].
  - split.
    + intros E. injection E as <- E. split; [right; split; reflexivity|apply IH; exact E].
    + intros [[E|[_ ->]] H]; [congruence|]. f_equal. apply IH. exact H.
  - split.
    + intros E. injection E as -> E. split; [left; reflexivity|apply IH; exact E].
    + intros [[->|[E _]] H]; [f_equal; apply IH; exact H|congruence].
Qed.
Lemma no_dash_app a b : no_dash a -> no_dash b -> no_dash (a ++ b).
Proof. induction a as [|x a IH]; cbn; [tauto|]. intros [H1 H2] H3. split; [exact H1|apply IH; assumption]. Qed.
Lemma fits_iff md base : no_dash md -> fits md base = true <-> module_file md base.
Proof.
  intros H. unfold fits, module_file. rewrite orb_true_iff, !String.eqb_eq.
  rewrite !dashes_same; [tauto| |]; apply no_dash_app; try exact H; cbn; repeat split; discriminate.
Qed.

Fixpoint node_ind2 (P : node -> Prop) (Hf : P File) (Hn : P (Dir None)) (Hd : forall ch, Forall (fun x => P (snd x)) ch -> P (Dir (Some ch))) (n : node) : P n :=
  match n with
  | File => Hf
  | Dir None => Hn
  | Dir (Some ch) => Hd ch ((fix go (l : list (string * node)) : Forall (fun x => P (snd x)) l :=
      match l with [] => Forall_nil _ | x :: l' => Forall_cons x (node_ind2 P Hf Hn Hd (snd x)) (go l') end) ch)
  end.

Lemma at_path_sub p0 root p ch nm c q n : at_path p0 root p (Dir (Some ch)) -> In (nm, c) ch -> at_path (nm :: p) c q n -> at_path p0 root q n.
Proof. intros H Hin A. induction A; [eapply below; eassumption|eapply below; eassumption]. Qed.
(** the way down, from the outside *)
Lemma at_path_dir p0 ch q n : at_path p0 (Dir (Some ch)) q n -> (q = p0 /\ n = Dir (Some ch)) \/ exists nm c, In (nm, c) ch /\ at_path (nm :: p0) c q n.
Proof.
  intros A. induction A as [|p ch' nm c A IH Hin]; [left; split; reflexivity|]. right. destruct IH as [[-> E]|(nm' & c' & Hin' & A')].
  - injection E as ->. exists nm, c. split; [exact Hin|constructor].
  - exists nm', c'. split; [exact Hin'|]. eapply below; eassumption.
Qed.
Lemma at_path_leaf p0 root q n : (forall ch, root <> Dir (Some ch)) -> at_path p0 root q n -> q = p0 /\ n = root.
Proof. intros H A. induction A as [|p ch nm c A IH Hin]; [split; reflexivity|]. destruct IH as [_ E]. destruct (H ch (eq_sym E)). Qed.

Lemma walk_spec md n : forall path, match walk md path n with
  | WFound p => exists m, at_path path n p m /\ fits md (hd "" p) = true
  | WErr => exists p, at_path path n p (Dir None)
  | WDone => forall p m, at_path path n p m -> m <> Dir None /\ fits md (hd "" p) = false
  end.
Proof.
  induction n as [| |ch IH] using node_ind2; intros path; cbn [walk].
  - destruct (fits md (hd "" path)) eqn:E; [exists File; split; [constructor|exact E]|].
    intros p m A. apply at_path_leaf in A as [-> ->]; [|discriminate]. split; [discriminate|exact E].
  - exists path. constructor.
  - destruct (fits md (hd "" path)) eqn:E; [exists (Dir (Some ch)); split; [constructor|exact E]|].
    assert (K : forall l, (forall x, In x l -> In x ch) -> Forall (fun x => forall path, match walk md path (snd x) with
        | WFound p => exists m, at_path path (snd x) p m /\ fits md (hd "" p) = true
        | WErr => exists p, at_path path (snd x) p (Dir None)
        | WDone => forall p m, at_path path (snd x) p m -> m <> Dir None /\ fits md (hd "" p) = false end) l ->
      match (fix loop (l : list (string * node)) : wres :=
              match l with
              | [] => WDone
              | (nm, c) :: l' => match walk md (nm :: path) c with WDone => loop l' | r => r end
              end) l with
      | WFound p => exists m, at_path path (Dir (Some ch)) p m /\ fits md (hd "" p) = true
      | WErr => exists p, at_path path (Dir (Some ch)) p (Dir None)
      | WDone => forall nm c p m, In (nm, c) l -> at_path (nm :: path) c p m -> m <> Dir None /\ fits md (hd "" p) = false
      end).
    { induction l as [|[nm c] l IHl]; intros Hin HF; [intros nm c p m []|]. inversion HF as [|? ? H1 H2]; subst. cbn [snd] in H1. specialize (H1 (nm :: path)).
      assert (Hc : In (nm, c) ch) by (apply Hin; left; reflexivity).
      destruct (walk md (nm :: path) c) as [p| |].
      - destruct H1 as (m & A & B). exists m. split; [eapply at_path_sub; [constructor|exact Hc|exact A]|exact B].
      - destruct H1 as (p & A). exists p. eapply at_path_sub; [constructor|exact Hc|exact A].
      - specialize (IHl (fun x Hx => Hin x (or_intror Hx)) H2).
        match type of IHl with match ?X with _ => _ end => destruct X as [p| |] end; [exact IHl|exact IHl|].
        intros nm' c' p m [F|F] A; [injection F as <- <-; exact (H1 p m A)|exact (IHl nm' c' p m F A)]. }
    specialize (K ch (fun x Hx => Hx) IH). match type of K with match ?X with _ => _ end => destruct X as [p| |] end; [exact K|exact K|].
    intros p m A. apply at_path_dir in A as [[-> ->]|(nm & c & Hin & A)]; [split; [discriminate|exact E]|exact (K nm c p m Hin A)].
Qed.
