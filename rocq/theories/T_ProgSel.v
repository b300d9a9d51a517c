(** * Property C67: which BPF programs are traced, and how. *)
From Coq Require Import List Bool String ZArith Lia.
From Verif Require Import M_Go M_ProgSel S_ProgSel P_ProgSel.
Import ListNotations.
Open Scope string_scope.
Open Scope list_scope.

(** C67.  For every system and every list of -p flags: what is traced is a function of a loaded program that some flag asks for, it can be traced, and
    it is traced with that flag's options (but perhaps not its packet option). *)
Theorem C67_asked_for_partial : forall w disasm fs tr, world_ok w -> flags_ok fs -> prepare w disasm fs = Some tr -> forall i fn v, aget keyb (i, fn) tr = Some v ->
  exists f p, In f fs /\ asked w f p fn /\ pg_id p = i /\ can_be disasm p fn /\ In fn (pg_funcs p) /\
    (v = pf_imm f \/ v = {| im_func := im_func (pf_imm f); im_graph := im_graph (pf_imm f); im_stack := im_stack (pf_imm f); im_lbr := im_lbr (pf_imm f); im_both := im_both (pf_imm f); im_pkt := false |}).
Proof. intros w d fs tr Hw Hok H i fn v Hk. exact (sound w d Hw fs tr Hok H (i, fn) v Hk). Qed.
Print Assumptions C67_asked_for_partial.
(** C67.  With flags that are all ids: everything asked for that can be traced is, with exactly the options of the first flag that asks for it. *)
Theorem C67_ids_partial : forall w disasm fs tr, world_ok w -> fs <> [] -> (forall f, In f fs -> is_id (pf_sel f)) -> prepare w disasm fs = Some tr ->
  (forall f p fn, In f fs -> asked w f p fn -> can_be disasm p fn -> aget keyb (pg_id p, fn) tr <> None) /\
  (forall i fn v, aget keyb (i, fn) tr = Some v -> exists l1 f l2 p, fs = l1 ++ f :: l2 /\ asked w f p fn /\ pg_id p = i /\ v = pf_imm f /\
     forall g q, In g l1 -> pg_id q = i -> ~ asked w g q fn).
Proof.
  intros w d fs tr Hw Hne Hid H. assert (E := not_mixed fs Hne Hid). unfold prepare in H. rewrite E in H. split.
  - exact (proj2 (by_ids_ok w d Hw fs [] tr H)).
  - intros i fn v Hk. exact (by_ids_first w d Hw fs [] tr H (i, fn) v eq_refl Hk).
Qed.
Print Assumptions C67_ids_partial.
(** C67.  With flags of any kind but "*", no two with the same selector: everything asked for (of programs with BTF) that can be traced is. *)
Theorem C67_all_traced_partial : forall w disasm fs tr, world_ok w -> NoDup (map pf_sel fs) -> (forall f, In f fs -> pf_sel f <> PAll) -> prepare w disasm fs = Some tr ->
  forall f p fn, In f fs -> asked w f p fn -> pg_entry p <> None -> can_be disasm p fn -> aget keyb (pg_id p, fn) tr <> None.
Proof. intros w d fs tr Hw Hn Ha H. exact (complete w d Hw fs tr Hn Ha H). Qed.
Print Assumptions C67_all_traced_partial.

(** C67, refuted: as soon as one flag is not an id, the packet option of ids, tags, names and "*" is dropped, for every program. *)
Theorem C67_pkt_dropped_refuted : forall w disasm fs f tr, world_ok w -> flags_ok fs -> In f fs -> ~ is_id (pf_sel f) -> (forall g, In g fs -> by_itself (pf_sel g)) ->
  prepare w disasm fs = Some tr -> forall i fn v, aget keyb (i, fn) tr = Some v -> im_pkt v = false.
Proof.
  intros w d fs f tr Hw Hok Hf Hn Hb H i fn v Hk. destruct (mixed_just w d Hw fs tr Hok (mixed_iff fs f Hf Hn) H (i, fn) v Hk) as (h & p & Hh & _ & _ & _ & _ & [[Ho _]|[_ E]]).
  - specialize (Hb h Hh). destruct (pf_sel h); cbn in *; tauto.
  - rewrite E. reflexivity.
Qed.
Print Assumptions C67_pkt_dropped_refuted.
(** C67, refuted: then, of two flags with the same id, tag or name (say "n:prog:f1" and "n:prog:f2") only the last counts: what only the first asks for
    is not traced, for any system. *)
Theorem C67_overridden_refuted : forall w disasm l1 f l2 g l3 h tr p fn, world_ok w -> let fs := l1 ++ f :: l2 ++ g :: l3 in
  (forall x, In x fs -> pf_sel x <> PAll) -> In h fs -> ~ is_id (pf_sel h) -> pf_sel g = pf_sel f -> (match pf_sel f with PId _ | PTag _ | PName _ => True | _ => False end) ->
  asked w f p fn -> (forall x, In x (l1 ++ l2 ++ g :: l3) -> ~ asked w x p fn) -> prepare w disasm fs = Some tr -> aget keyb (pg_id p, fn) tr = None.
Proof.
  intros w d l1 f l2 g l3 h tr p fn Hw fs Ha Hh Hn Hgf Hb Hask Hno H. assert (X := overridden w d Hw l1 f l2 g l3 tr p fn Ha (mixed_iff fs h Hh Hn) Hgf Hb (proj1 Hask) Hno H).
  unfold has in X. destruct (aget keyb (pg_id p, fn) tr); [exfalso; apply X; discriminate|reflexivity].
Qed.
Print Assumptions C67_overridden_refuted.
(** C67, refuted: beside "*", a function asked for with an id, a tag or a name is not traced unless it is the entry of its program. *)
Theorem C67_star_drops_refuted : forall w disasm fs tr, world_ok w -> (exists f, In f fs /\ pf_sel f = PAll) -> (forall g, In g fs -> by_itself (pf_sel g)) -> prepare w disasm fs = Some tr ->
  forall p fn, In p (w_progs w) -> pg_entry p <> Some fn -> aget keyb (pg_id p, fn) tr = None.
Proof.
  intros w d fs tr Hw Hall Hb H p fn Hp He. destruct (aget keyb (pg_id p, fn) tr) as [v|] eqn:E; [|reflexivity]. exfalso.
  destruct (star_entry w d Hw fs tr Hall H _ v E) as [(q & Hq & Hi & Hen)|(f & Hf & Ho)].
  - cbn [fst snd] in *. assert (q = p) by (assert (load w (pg_id p) = Some q) by (apply load_spec; auto); assert (load w (pg_id p) = Some p) by (apply load_spec; auto); congruence). subst q. contradiction.
  - specialize (Hb f Hf). destruct (pf_sel f); cbn in *; tauto.
Qed.
Print Assumptions C67_star_drops_refuted.

Definition im0 (fn : string) (pkt : bool) : imm := {| im_func := fn; im_graph := false; im_stack := true; im_lbr := false; im_both := false; im_pkt := pkt |}.
Definition pg (i : Z) (tag e : string) (fs : list string) : prog := {| pg_id := i; pg_tag := tag; pg_entry := Some e; pg_funcs := fs; pg_can := true; pg_skip := fun _ => false |}.
Definition w0 : world := {| w_progs := [pg 5 "aa" "xdp_main" ["xdp_main"; "f1"; "f2"]; pg 7 "bb" "tc_main" ["tc_main"]; pg 9 "cc" "xdp_main" ["xdp_main"; "f1"; "f2"]];
  w_pins := fun s => if String.eqb s "/sys/fs/bpf/tc" then Some 7%Z else None; w_fds := fun _ => [] |}.
Definition fl (s : sel) (fn : string) (pkt : bool) : pflag := {| pf_sel := s; pf_imm := im0 fn pkt |}.
(** Non-vacuous: with ids both functions are traced and the packet option is kept; with names the first is lost, and so is the packet option. *)
Example C67_demo : world_ok w0 /\
  prepare w0 false [fl (PId 5) "f1" true; fl (PId 5) "f2" false] = Some [((5%Z, "f1"), im0 "f1" true); ((5%Z, "f2"), im0 "f2" false)] /\
  prepare w0 false [fl (PName "xdp_main") "f1" true; fl (PName "xdp_main") "f2" true; fl (PPinned "/sys/fs/bpf/tc") "" true] =
    Some [((7%Z, "tc_main"), im0 "" true); ((5%Z, "f2"), im0 "f2" false); ((9%Z, "f2"), im0 "f2" false)] /\
  asked w0 (fl (PName "xdp_main") "f1" true) (pg 9 "cc" "xdp_main" ["xdp_main"; "f1"; "f2"]) "f1" /\
  prepare w0 false [fl (PId 5) "f1" true; fl PAll "" false] = Some [((5%Z, "xdp_main"), im0 "" false); ((7%Z, "tc_main"), im0 "" false); ((9%Z, "xdp_main"), im0 "" false)].
Proof. split; [repeat constructor; cbn; intuition congruence|]. split; [vm_compute; reflexivity|]. split; [vm_compute; reflexivity|]. split; [split; [cbn; auto|split; reflexivity]|vm_compute; reflexivity]. Qed.
