(** C41 and C56: symbol resolution and archives. *)
From stdpp Require Import base list numbers gmap.
From Verif Require Import Ld.Sym_model Ld.Sym_spec Ld.Sym_proof Ld.Sym_ref_proof.
Local Open Scope Z_scope.

(** ** C41 *)
(** Errors are reported exactly if two of the loaded objects define a name for good, or one
    defines a name that belongs to the linker. *)
Theorem C41_errors pool gen order fuel entry fs x :
  pool_ok pool -> entry ∉ gen -> order_ok order -> files_ok pool fs -> enough fs fuel ->
  link pool gen order fuel entry fs = Done x ->
  errors (tables x) = 0%nat <-> no_clash pool gen (loaded x).
Proof. exact (errors_iff pool gen order fuel entry fs x). Qed.
Print Assumptions C41_errors.

(** A name is left unresolved exactly if it is wanted and nothing defines it. *)
Theorem C41_unresolved pool gen order fuel entry fs x n :
  pool_ok pool -> entry ∉ gen -> order_ok order -> files_ok pool fs -> enough fs fuel ->
  link pool gen order fuel entry fs = Done x ->
  n ∈ unresolved (tables x) <-> missing pool gen entry (loaded x) n.
Proof. exact (unresolved_iff pool gen order fuel entry fs x n). Qed.
Print Assumptions C41_unresolved.

(** If the link goes on, every reference (and the entry point) binds to the strong definition, if
    there is one, else to the first one, and its address is that definition's; a name
    of the linker's own gets the linker's address. *)
Theorem C41_binding pool gen order fuel entry fs gaddr addr x id n :
  pool_ok pool -> entry ∉ gen -> order_ok order -> files_ok pool fs -> enough fs fuel ->
  link pool gen order fuel entry fs = Done x -> accepted x ->
  n = entry \/ (id ∈ loaded x /\ refers pool id n) ->
  (n ∈ gen /\ (forall j, j ∈ loaded x -> ~ defines pool j n) /\ symbol_address pool gaddr addr x n = Some (gaddr !! n)) \/
  (n ∉ gen /\ exists d s, binds_to pool (loaded x) n d /\ obj_sym pool d n = Some s /\
     symbol_address pool gaddr addr x n = match s_shndx s with
       | Undef => None
       | Sec k => Some (Some ((addr d k + s_value s) mod 2 ^ 64))
       | Common => match pool !! d ≫= o_nobit with Some k => Some (Some ((addr d k + s_value s) mod 2 ^ 64)) | None => Some None end
       end /\ s_shndx s <> Undef).
Proof. exact (binding pool gen order fuel entry fs gaddr addr x id n). Qed.
Print Assumptions C41_binding.

(** What a relocation against a global symbol gets, common symbols apart. *)
Theorem C41_relocation pool gen order fuel entry fs gaddr addr x id idx b section n s addend :
  pool_ok pool -> entry ∉ gen -> order_ok order -> files_ok pool fs -> enough fs fuel ->
  link pool gen order fuel entry fs = Done x -> accepted x ->
  id ∈ loaded x -> refers pool id n -> b = BGlobal \/ b = BWeak ->
  (exists d t k, binds_to pool (loaded x) n d /\ obj_sym pool d n = Some t /\ s_shndx t = Sec k /\ n ∉ gen /\
     rela_sym_address pool gaddr addr x id idx b section n s addend = Some ((addr d k + s_value t + addend) mod 2 ^ 64)) \/
  (n ∈ gen /\ rela_sym_address pool gaddr addr x id idx b section n s addend = (fun a => (a + addend) mod 2 ^ 64) <$> gaddr !! n) \/
  (exists d t, binds_to pool (loaded x) n d /\ obj_sym pool d n = Some t /\ s_shndx t = Common).
Proof. exact (rela_global pool gen order fuel entry fs gaddr addr x id idx b section n s addend). Qed.
Print Assumptions C41_relocation.

(** The order of the files, and of the names in the tables, does not matter for a name that has a
    strong definition. *)
Theorem C41_order_independent pool gen order order' fuel fuel' entry fs fs' x x' n s i j :
  pool_ok pool -> entry ∉ gen -> order_ok order -> order_ok order' ->
  files_ok pool fs -> files_ok pool fs' -> enough fs fuel -> enough fs' fuel' ->
  link pool gen order fuel entry fs = Done x -> link pool gen order' fuel' entry fs' = Done x' -> accepted x ->
  (forall k, k ∈ loaded x <-> k ∈ loaded x') ->
  s ∈ loaded x -> strong pool s n ->
  defined (tables x) !! n = Some i -> defined (tables x') !! n = Some j -> i = s /\ j = s.
Proof. exact (order_independent pool gen order order' fuel fuel' entry fs fs' x x' n s i j). Qed.
Print Assumptions C41_order_independent.

(** A weak reference that nothing defines stops the link; by the ABI it is 0. *)
Theorem C41_weak_undefined_refuted : exists pool fs order x,
  pool_ok pool /\ files_ok pool fs /\ order_ok order /\ link pool ∅ order 1 1%positive fs = Done x /\ errors (tables x) = 0%nat /\ ~ accepted x /\
  forall n id o s, n ∈ unresolved (tables x) -> id ∈ loaded x -> pool !! id = Some o -> (n, s) ∈ o_syms o -> s_weak s = true.
Proof. exact weak_undefined. Qed.
Print Assumptions C41_weak_undefined_refuted.

(** Of two common symbols the first is taken, though the other is larger. *)
Theorem C41_common_size_refuted : exists pool fs order x id n s j t,
  pool_ok pool /\ files_ok pool fs /\ order_ok order /\ link pool ∅ order 1 1%positive fs = Done x /\ accepted x /\
  defined (tables x) !! n = Some id /\ obj_sym pool id n = Some s /\ s_shndx s = Common /\
  j ∈ loaded x /\ obj_sym pool j n = Some t /\ s_shndx t = Common /\ s_size s < s_size t.
Proof. exact common_size. Qed.
Print Assumptions C41_common_size_refuted.

(** The value of a common symbol, which by the ABI is its alignment, is taken for an offset: two
    common symbols of an object made by another compiler share an address. *)
Theorem C41_common_address_refuted : exists pool fs order x addr gaddr m n s t a,
  pool_ok pool /\ files_ok pool fs /\ order_ok order /\ link pool ∅ order 1 1%positive fs = Done x /\ accepted x /\ m <> n /\
  obj_sym pool 0 m = Some s /\ s_shndx s = Common /\ 0 < s_size s /\
  obj_sym pool 0 n = Some t /\ s_shndx t = Common /\ 0 < s_size t /\
  symbol_address pool gaddr addr x m = Some (Some a) /\ symbol_address pool gaddr addr x n = Some (Some a).
Proof. exact common_address. Qed.
Print Assumptions C41_common_address_refuted.

(** A relocation against a section symbol uses the number of the symbol as that of the section.
    This assembler numbers them alike; others need not. *)
Theorem C41_section_symbol_refuted : exists pool gaddr addr x id idx n s k,
  s_shndx s = Sec k /\ addr id k <> addr id idx /\
  rela_sym_address pool gaddr addr x id idx BLocal true n s 0 <> Some (addr id k).
Proof. exact section_symbol. Qed.
Print Assumptions C41_section_symbol_refuted.

(** ** C56 *)
(** With truthful indexes the resolution ends; no object is loaded twice; objects are loaded as
    given, and members of an archive only for a name of its index that is missing, until
    nothing the archive has is missing. *)
Theorem C56_gathers pool gen order fuel entry fs :
  pool_ok pool -> entry ∉ gen -> order_ok order -> files_ok pool fs -> enough fs fuel ->
  exists x, link pool gen order fuel entry fs = Done x /\ NoDup (loaded x) /\ gathers pool gen entry [] fs (loaded x).
Proof. exact (gathers_ok pool gen order fuel entry fs). Qed.
Print Assumptions C56_gathers.

(** If the index names a member that does not define the symbol, the linker never ends. *)
Theorem C56_stale_index_refuted : exists pool fs order, pool_ok pool /\ order_ok order /\
  (forall f, f ∈ fs -> match f with FObj i => is_Some (pool !! i) | FAr ar => forall n m, ar !! n = Some m -> is_Some (pool !! m) end) /\
  forall fuel, link pool ∅ order fuel 1%positive fs = Fuel.
Proof. exact stale_index. Qed.
Print Assumptions C56_stale_index_refuted.

Example C41_example :
  pool_ok ex_pool /\ files_ok ex_pool ex_fs /\ enough ex_fs 5 /\ link ex_pool ex_gen asc 5 1%positive ex_fs = Done ex_x /\
  loaded ex_x = [0; 1; 2]%nat /\ accepted ex_x /\ defined (tables ex_x) !! 5%positive = Some 1%nat.
Proof. exact ex_facts. Qed.
Example C56_example : loaded ex_x = [0; 1; 2]%nat /\ pulled_for ex_pool ex_gen 1%positive [0; 1]%nat ex_ar 2.
Proof. exact ex_pulled. Qed.
