(** * Properties C60, C61, C62: source lines of kernel addresses, and start-up in the background. *)
From Coq Require Import List Bool String ZArith Lia.
From Verif Require Import M_Go M_Kallsyms M_Cache M_A2l S_A2l P_A2l M_Ready P_Ready.
Import ListNotations.
Open Scope string_scope.
Open Scope Z_scope.

(** C60.  For every sequence of look-ups (any order, repeated, save failures included) that starts with a cache filled during this same boot:
    a line that is shown is the true line of the run-time address; every address with a symbol and a line gets it (unless the save fails);
    a look-up crashes only for an address without symbol. *)
Theorem C60_right_line_partial : forall b sym c l rs s', boot_ok b -> of_this_boot b sym c -> gets b (fresh c) (asked sym l) = (rs, s') ->
  of_this_boot b sym (t_cache s') /\ List.length rs = List.length l /\
  forall i a ok r, nth_error l i = Some (a, ok) -> nth_error rs i = Some r ->
    (forall v, r = ALine v -> true_line b (sym a) a = Some v) /\
    (forall v, true_line b (sym a) a = Some v -> sym a <> None -> ok = true -> r = ALine v) /\
    (r = APanic -> sym a = None /\ true_line b (sym a) a <> None).
Proof.
  intros b sym c l rs s' Hb Hc H. assert (HG : good b sym (fresh c)) by (split; [exact Hc|intros m r E; discriminate E]).
  destruct (gets_ok b sym l Hb _ _ _ HG H) as ([H1 _] & H2 & H3). auto.
Qed.
Print Assumptions C60_right_line_partial.
(** C60, refuted across boots: the cache file is keyed by the run-time address alone.  What was found in one boot is shown in every later
    boot, whatever runs at that address then. *)
Theorem C60_other_boot_refuted : forall b1 b2 m1 m2 a l c n s1 r s2 ok, boot_ok b1 -> true_line b1 (Some m1) a = Some l -> m1 <> "bpf" -> aget Z.eqb a c = None ->
  get b1 true {| t_cache := c; t_cnt := n; t_kmods := [] |} a (Some m1) = (r, s1) -> get b2 ok (fresh (t_cache s1)) a m2 = s2 -> fst s2 = ALine l.
Proof.
  intros b1 b2 m1 m2 a l c n s1 r s2 ok Hb Ht Hm Hc H1 <-.
  assert (E : aget Z.eqb a (t_cache s1) = Some l).
  { unfold get in H1. cbn [t_cache] in H1. rewrite Hc in H1. destruct (get_mod b1 _ (Some m1)) as [q s0] eqn:Eg.
    destruct (get_mod_ok b1 {| t_cache := c; t_cnt := n; t_kmods := [] |} (Some m1) q s0 Hb ltac:(intros x y E; discriminate E) Eg) as (C1 & C2 & C3 & Hq). cbn [t_cache] in C1.
    destruct q as [[[d|] k]|]; [|rewrite (Hq a) in Ht; discriminate|destruct Hq as [Hq _]; rewrite (Hq a) in Ht; discriminate].
    rewrite (Hq a), Ht in H1. destruct (String.eqb_spec m1 "bpf"); [congruence|]. unfold add in H1. rewrite C1, Hc in H1. rewrite andb_false_r in H1. injection H1 as _ <-. cbn [t_cache].
    rewrite (P_Go.aget_aput _ P_Go.Zeqb_ok), Z.eqb_refl. reflexivity. }
  unfold get. cbn [fresh t_cache]. rewrite E. reflexivity.
Qed.
Print Assumptions C60_other_boot_refuted.
Definition kimg : dwarf := fun a => if a =? 0x81000040 then Some 7 else if a =? 0x81200040 then Some 9 else None.
Definition nft : dwarf := fun a => if a =? 0x10 then Some 33 else None.
Definition boot_of (slide : Z) : boot := {| b_vmlinux := kimg; b_kaslr := {| k_kaddr := 0x81000000 + slide; k_saddr := 0x81000000 |};
  b_mods := fun m => if String.eqb m "nf_tables" then MFound (Some nft) {| k_kaddr := 0xc0000000; k_saddr := 0 |} else MMissing |}.
Definition sym0 (a : Z) : option string := if a <? 0x80000000 then None else if a <? 0xc0000000 then Some "" else Some "nf_tables".
Example demo_C60 : boot_ok (boot_of 0x100000) /\ of_this_boot (boot_of 0x100000) sym0 [] /\
  fst (gets (boot_of 0x100000) (fresh []) (asked sym0 [(0x81100040, true); (0xc0000010, true); (0x81100040, true); (0x81100041, true)])) = [ALine 7; ALine 33; ALine 7; AError].
Proof.
  split; [split; [repeat split; cbn; lia|intros m d k; cbn; destruct (String.eqb m "nf_tables"); intros E; [injection E as _ <-; repeat split; cbn; lia|discriminate]]|].
  split; [intros a l E; discriminate E|vm_compute; reflexivity].
Qed.
(** the same address shows line 7 after a reboot although line 9 runs there *)
Example demo_other_boot : true_line (boot_of 0x200000) (sym0 0x81400040) 0x81400040 = Some 9 /\ true_line (boot_of 0x400000) (sym0 0x81400040) 0x81400040 = Some 7 /\
  fst (get (boot_of 0x200000) true (fresh (t_cache (snd (get (boot_of 0x400000) true (fresh []) 0x81400040 (sym0 0x81400040))))) 0x81400040 (sym0 0x81400040)) = ALine 7.
Proof. vm_compute. auto. Qed.
(** C60, refuted for addresses without symbol: the look-up crashes as soon as there is a line. *)
Theorem C60_no_symbol_crashes_refuted : forall b s a l ok, boot_ok b -> aget Z.eqb a (t_cache s) = None -> true_line b None a = Some l ->
  fst (get b ok s a None) = APanic.
Proof.
  intros b s a l ok [Hk _] Hc Ht. unfold get. rewrite Hc. cbn [get_mod]. rewrite eff_linked by exact Hk. cbn [true_line] in Ht. rewrite Ht. reflexivity.
Qed.
Print Assumptions C60_no_symbol_crashes_refuted.
(** A module's file is read at its first use only: once an address of the module was looked up in it, whatever becomes of the file (any other
    content, missing, unreadable) changes no later answer. *)
Theorem C60_module_read_once : forall b1 b2 m s a ok r s' l, get b1 ok s a (Some m) = (r, s') -> aget Z.eqb a (t_cache s) = None ->
  is_builtin_mod m = false -> b_mods b1 m <> MError ->
  b_vmlinux b1 = b_vmlinux b2 -> b_kaslr b1 = b_kaslr b2 -> (forall m', m' <> m -> b_mods b1 m' = b_mods b2 m') ->
  gets b2 s' l = gets b1 s' l.
Proof. exact read_once. Qed.
Print Assumptions C60_module_read_once.
Example demo_read_once : is_builtin_mod "nf_tables" = false /\ exists s', get {| b_vmlinux := fun _ => None; b_kaslr := {| k_kaddr := 0; k_saddr := 0 |}; b_mods := fun _ => MMissing |} true (fresh []) 5 (Some "nf_tables") = (ANotFound, s').
Proof. split; [reflexivity|]. eexists. reflexivity. Qed.
Example demo_no_symbol : fst (get {| b_vmlinux := fun _ => Some 1; b_kaslr := b_kaslr (boot_of 0); b_mods := b_mods (boot_of 0) |} true (fresh []) 0x1000 (sym0 0x1000)) = APanic.
Proof. reflexivity. Qed.

(** C61.  For every schedule of create() and a look-up: when the debug data can be read, the look-up returns as soon as both had their turns,
    and if it begins after create() has ended it uses the debug data. *)
Theorem C61_returns : forall l1 l2, (4 <= count_occ bool_dec l1 true)%nat -> (4 <= count_occ bool_dec l2 false)%nat -> returned (a2l_run true a2l0 (l1 ++ l2)).
Proof. exact ok_returns. Qed.
Print Assumptions C61_returns.
Theorem C61_begun_later_finds_partial : forall l1 l2, g_c (a2l_run true a2l0 l1) = CEnd -> g_w (a2l_run true a2l0 l1) = WReady -> (4 <= count_occ bool_dec l2 false)%nat ->
  g_w (a2l_run true a2l0 (l1 ++ l2)) = WFound.
Proof. exact late_found. Qed.
Print Assumptions C61_begun_later_finds_partial.
Example demo_C61 : g_c (a2l_run true a2l0 [true; true; true; true]) = CEnd /\ g_w (a2l_run true a2l0 [true; true; true; true]) = WReady /\
  g_w (a2l_run true a2l0 [false; false; true; true; false; true; true; false; false]) = WFound.
Proof. repeat split. Qed.
(** C61, refuted: a look-up that is woken up before the table is stored finds nothing although the debug data is there. *)
Theorem C61_woken_too_early_refuted : exists sched, g_w (a2l_run true a2l0 sched) = WNotFound.
Proof. exists [false; true; true; false; false; false]. reflexivity. Qed.
Print Assumptions C61_woken_too_early_refuted.
(** C61, refuted: when the debug data cannot be read, create() ends without waking anybody up: under no schedule does the look-up ever return, and
    the error is never reported. *)
Theorem C61_failure_blocks_for_ever_refuted : forall sched, ~ returned (a2l_run false a2l0 sched).
Proof. exact never_returns. Qed.
Print Assumptions C61_failure_blocks_for_ever_refuted.

(** C62.  For every set of programs and every order in which the parsing goroutines and the main thread run: who waits for the parsing and gets
    an answer sees every function of every program. *)
Theorem C62_waiting_sees_everything : forall tr ps l s fs, prun tr (progs0 ps) l = Some s -> pget s = SFuncs fs ->
  forall p, In p ps -> p_parses p = true /\ (forall f, In f (p_funcs p) -> In f fs).
Proof. exact waiting_sees_all. Qed.
Print Assumptions C62_waiting_sees_everything.
(** If all programs can be parsed and attaching starts after parsing, nothing crashes. *)
Theorem C62_attach_after_parsing_partial : forall tr ps l s, (forall p, In p ps -> p_parses p = true) -> (forall ip, In ip tr -> exists p, In p ps /\ In ip (p_funcs p)) ->
  traced_after tr ps l -> prun tr (progs0 ps) l = Some s -> h_panic s = false.
Proof. exact traced_after_ok. Qed.
Print Assumptions C62_attach_after_parsing_partial.
Definition two : list prog := [{| p_funcs := [16; 32]; p_parses := true |}; {| p_funcs := [48]; p_parses := true |}].
Example demo_C62 : traced_after [32; 48] two [PParse 1; PParse 0; PTrace 48; PFinish; PTrace 32] /\
  exists s, prun [32; 48] (progs0 two) [PParse 1; PParse 0; PTrace 48; PFinish; PTrace 32]%nat = Some s /\ pget s = SFuncs [16; 32; 48].
Proof.
  split; [|eexists; split; reflexivity]. intros l1 ip l2 s E H.
  destruct l1 as [|e1 l1]; [discriminate|]. injection E as <- E. destruct l1 as [|e2 l1]; [discriminate|]. injection E as <- E.
  destruct l1 as [|e3 l1]; [injection E as <- _; cbn in H; injection H as <-; cbn; auto|]. injection E as <- E.
  destruct l1 as [|e4 l1]; [discriminate|]. injection E as <- E. destruct l1 as [|e5 l1]; [injection E as <- _; cbn in H; injection H as <-; cbn; auto|].
  injection E as <- E. destruct l1; discriminate.
Qed.
(** C62, refuted: attaching does not wait for the parsing (bpf_tracing_prog.go:87), and crashes when it comes first. *)
Theorem C62_attach_first_crashes_refuted : exists tr ps l s, (forall p, In p ps -> p_parses p = true) /\ (forall ip, In ip tr -> exists p, In p ps /\ In ip (p_funcs p)) /\
  (forall ip, In (PTrace ip) l -> In ip tr) /\ prun tr (progs0 ps) l = Some s /\ h_panic s = true.
Proof.
  exists [48], two, [PParse 0; PTrace 48]%nat. eexists. split; [intros p [<-|[<-|[]]]; reflexivity|]. split; [intros ip [<-|[]]; exists {| p_funcs := [48]; p_parses := true |}; cbn; auto|].
  split; [intros ip [E|[E|[]]]; [discriminate|injection E as <-; left; reflexivity]|]. split; reflexivity.
Qed.
Print Assumptions C62_attach_first_crashes_refuted.
(** C62, refuted: if a traced program cannot be parsed, the parsing goroutine crashes instead of reporting it; parsing is never complete under any schedule. *)
Theorem C62_unparsed_program_refuted : forall tr ps l s p ip, In p ps -> p_parses p = false -> In ip tr -> In ip (p_funcs p) -> (forall q, In q ps -> In ip (p_funcs q) -> q = p) ->
  prun tr (progs0 ps) l = Some s -> pget s = SBlocked.
Proof.
  intros tr ps l s p ip H1 H2 H3 H4 H5 H6. unfold pget. rewrite (bad_program_never_done tr ps l s p ip H1 H2 H3 H4 H5 H6). reflexivity.
Qed.
Print Assumptions C62_unparsed_program_refuted.
Example demo_unparsed : exists s, prun [16] (progs0 [{| p_funcs := [16]; p_parses := false |}]) [PParse 0; PFinish]%nat = Some s /\ h_panic s = true.
Proof. eexists. split; reflexivity. Qed.
