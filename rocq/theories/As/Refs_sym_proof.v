(** The values of symbols. *)
From stdpp Require Import base list list_numbers numbers gmap option.
From Verif Require Import Util.Data_model As.Asm_model As.Asm_arch_model As.Asm_spec As.Asm_proof As.Asm_res_proof As.Asm_arch_proof As.Asm_a64_proof As.Asm_rv_proof As.Asm_rv_main_proof.
From Verif Require Import As.Refs_model As.Refs_spec As.Refs_proof As.Refs_x64_proof As.Refs_a64_proof As.Refs_rv_proof.
From Coq Require Import Lia.
Local Open Scope Z_scope.

Lemma settle_inv {I} step (R : code I -> list (code I) -> Prop) (HG : good step R) a ss0 fuel : forall ss t ss' t' us, inv R ss0 ss -> settle step fuel a ss t = Done ss' t' us -> inv R ss0 ss'.
Proof.
  induction fuel as [|fuel IH]; intros ss t ss' t' us Hi E; [done|]. cbn [settle] in E. unfold calc_label_address in E.
  destruct (calc_sections t a true ss) as [[[ss1 t1] ok1]|] eqn:E1; [|done]. pose proof (inv_calc _ _ _ _ _ _ _ _ _ E1 Hi) as Hi1.
  destruct (resolve_relative_address step t1 ss1) as [[[ss2 up] us2]|] eqn:E2; [|done].
  pose proof (inv_resolve step R (g_one _ _ HG) (g_step _ _ HG) (g_step1 _ _ HG) (g_step2 _ _ HG) _ _ _ Hi1 _ _ _ E2) as Hi2.
  destruct (ok1 && negb up); [by injection E as <- <- <-|]. by apply (IH ss2 t1 ss' t' us).
Qed.

Lemma align_unique a a' pad k : 0 <= k < 31 -> u64 a = u64 a' -> 0 <= pad < 2 ^ k -> u64 (a + pad) mod 2 ^ k = 0 -> ALIGN a' (2 ^ k) = u64 (a + pad).
Proof.
  intros Hk Ha Hp Hm. rewrite ALIGN_eq by done. rewrite mod_u64 in Hm by lia.
  assert (H2 : 2 ^ 64 = 2 ^ (64 - k) * 2 ^ k) by (rewrite <- Z.pow_add_r by lia; f_equal; lia).
  assert (Hx : exists q, a' = a + q * 2 ^ 64). { unfold u64 in Ha. pose proof (Z.div_mod a (2 ^ 64) ltac:(lia)). pose proof (Z.div_mod a' (2 ^ 64) ltac:(lia)). exists (a' / 2 ^ 64 - a / 2 ^ 64). lia. }
  destruct Hx as [q ->].
  assert (E : (- (a + q * 2 ^ 64)) mod 2 ^ k = pad).
  { apply Z.mod_divide in Hm; [|pose proof (Z.pow_pos_nonneg 2 k); lia]. destruct Hm as [m Hm].
    symmetry. apply (Z.mod_unique_pos _ _ (- m - q * 2 ^ (64 - k))); [lia|]. rewrite H2. nia. }
  rewrite E. apply u64_congr. exists q. lia.
Qed.
Lemma fix_starts {I} (ss : list (section I)) : forall a a' outs, u64 a = u64 a' -> Forall (fun s => pow2 (align s)) ss -> in_sequence a ss -> mapM emit ss = Some outs ->
  Forall (fun p : section I * (list Z * Z) => 0 < size_of (bss p.1) p.2) (zip ss outs) -> fix_section_size a' (zip ss outs) = start <$> ss.
Proof.
  induction ss as [|s ss IH]; intros a a' outs Ha Hp Hs E Hn; [done|]. apply stdpp.list.Forall_cons in Hp as [(k & Hk & Hal) Hp].
  cbn in E. destruct (emit s) as [o|] eqn:Eo; [|done]. cbn in E. destruct (mapM emit ss) as [outs'|] eqn:E'; [|done]. cbn in E. injection E as <-.
  cbn in Hn. apply stdpp.list.Forall_cons in Hn as [Hn Hn']. cbn [fst snd] in Hn. cbn in Hs. destruct Hs as ((pad & Hpad & Hst) & Hmod & Hrest).
  cbn [zip zip_with fix_section_size]. destruct (Z.leb_spec (size_of (bss s) o) 0); [lia|].
  assert (Hs : ALIGN a' (align s) = start s). { rewrite Hst, Hal in *. apply (align_unique a a' pad k); done. }
  cbv zeta. rewrite Hs. cbn [fmap list_fmap]. f_equal. apply (IH (start s + size_of (bss s) o)); [by rewrite u64_u64|done|by apply Hrest|done|done].
Qed.

Lemma values_ok {I} a (ss : list (section I)) t w : Forall (fun s => pow2 (align s)) ss -> placed a ss t -> written a ss = Some w -> none_empty w -> values_right (symbol_value t) w.
Proof.
  intros Hp [Hpl Hseq] Hw Hne. unfold written in Hw. destruct (mapM emit ss) as [outs|] eqn:Eo; [|done]. cbn in Hw. injection Hw as <-.
  assert (Hlen : length outs = length ss) by (symmetry; by eapply mapM_length).
  assert (Hfl : forall l a', length (@fix_section_size I a' l) = length l).
  { clear. induction l as [|[s o] l IH]; intros a'; [done|]. cbn. destruct (_ <=? 0); cbn; by rewrite IH. }
  assert (Hfix : fix_section_size a (zip ss outs) = start <$> ss).
  { apply (fix_starts ss a a outs); try done. rewrite stdpp.list.Forall_forall. intros [s o] Hin. apply elem_of_list_lookup in Hin as [i Hi].
    pose proof (lookup_lt_Some _ _ _ Hi) as Hl. destruct (lookup_lt_is_Some_2 (fix_section_size a (zip ss outs)) i) as [st Hst]; [by rewrite Hfl|].
    apply (Hne s o st). apply elem_of_list_lookup. exists i. apply lookup_zip_with_Some. exists (s, o), st. done. }
  rewrite Hfix. intros s o st Hin pre n post o' Hit Ho'.
  assert (Hs : s ∈ ss /\ st = start s).
  { apply elem_of_list_lookup in Hin as [i Hi]. apply lookup_zip_with_Some in Hi as ([s' o1] & st' & [= <- <- <-] & H1 & H2). apply lookup_zip_with_Some in H1 as (s2 & o2 & [= <- <-] & H1 & _).
    split; [by eapply elem_of_list_lookup_2|]. rewrite list_lookup_fmap, H1 in H2. by injection H2. }
  destruct Hs as [Hs ->]. unfold items in Hit. apply fmap_app_inv in Hit as (l1 & l2 & -> & Hl2 & Hirs). symmetry in Hl2. apply fmap_cons_inv in Hl2 as ([i ad] & l3 & Hi & -> & ->). cbn in Hi. subst i.
  destruct (Hpl s Hs l1 (ILabel n) ad l3 o' Hirs Ho') as [Had Ht]. unfold symbol_value. rewrite Ht, Had. cbn. f_equal.
  unfold Z.sub. rewrite u64_u64_l. f_equal. lia.
Qed.

Theorem x64_values fuel a ss t ss' t' us w : parsed x64_fresh ss t -> settle x64_step fuel a ss t = Done ss' t' us ->
  written a ss' = Some w -> none_empty w -> values_right (symbol_value t') w.
Proof.
  intros Hp E. apply values_ok; [|by apply (x64_done fuel a ss t ss' t' us)].
  destruct (settle_inv _ _ x64_good a ss fuel ss t ss' t' us (parsed_inv _ _ _ t x64_fresh_R Hp) E) as [_ H]. eapply stdpp.list.Forall_impl; [done|]. by intros s [? _].
Qed.
Theorem a64_values fuel a ss t ss' t' us w : parsed a64_fresh ss t -> settle a64_step fuel a ss t = Done ss' t' us ->
  written a ss' = Some w -> none_empty w -> values_right (symbol_value t') w.
Proof.
  intros Hp E. apply values_ok; [|by apply (a64_done fuel a ss t ss' t' us)].
  destruct (settle_inv _ _ a64_good a ss fuel ss t ss' t' us (parsed_inv _ _ _ t a64_fresh_R Hp) E) as [_ H]. eapply stdpp.list.Forall_impl; [done|]. by intros s [? _].
Qed.
Theorem rv_values fuel a ss t ss' t' us w : parsed rv_fresh ss t -> settle rv_step fuel a ss t = Done ss' t' us ->
  written a ss' = Some w -> none_empty w -> values_right (symbol_value t') w.
Proof.
  intros Hp E. apply values_ok; [|by apply (rv_done fuel a ss t ss' t' us)].
  destruct (settle_inv _ _ rv_good a ss fuel ss t ss' t' us (parsed_inv _ _ _ t rv_fresh_R Hp) E) as [_ H]. eapply stdpp.list.Forall_impl; [done|]. by intros s [? _].
Qed.

(** Together with the linker, which adds the address of the section to the value. *)
Theorem values_own {I} (value : Z -> nat -> option Z) w (s : section I) o st sym sec : values_right value w -> (s, o, st) ∈ w -> bss s = false ->
  (forall n x, n ∈ labels (items s) -> value st n = Some x -> sym n = u64 (sec + x)) -> own_labels sym sec (items s).
Proof.
  intros Hv Hin Hb Hsym pre n post bs z Hit Ho. specialize (Hv s o st Hin pre n post (bs, z) Hit). rewrite Hb in Hv. specialize (Hv Ho).
  apply Hsym in Hv.
  - rewrite Hv. cbn [size_of fst]. rewrite Z.add_comm, u64_u64_l. f_equal. lia.
  - rewrite Hit. unfold labels. rewrite elem_of_list_omap. exists (ILabel n). split; [|done]. apply elem_of_app. right. left.
Qed.
