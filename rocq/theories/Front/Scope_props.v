(** C26, C97, C98: scopes of variables, tags and typedef names. *)
From stdpp Require Import base list numbers gmap.
From Verif Require Import Front.Scope_model Front.Scope_spec Front.Scope_proof Front.Scope_find_proof.
Open Scope nat_scope.

Theorem C26_terminates es st s n : run init_global es = Some st -> s < scope_count es -> scope_find (enough st) st s n <> None.
Proof. exact (lookup_ends es st s n). Qed.
Print Assumptions C26_terminates.

Theorem C26_innermost es st s n s' v : run init_global es = Some st -> s < scope_count es ->
  (found_var st s n = Some (s', v) <-> innermost es (declares_var es n) s s' /\ effective (var_decls es s' n) = Some v).
Proof. exact (innermost_lookup es st s n s' v). Qed.
Print Assumptions C26_innermost.

Theorem C26_undeclared es st s n : run init_global es = Some st -> s < scope_count es ->
  (found_var st s n = None <-> nowhere es (declares_var es n) s).
Proof. exact (undeclared_lookup es st s n). Qed.
Print Assumptions C26_undeclared.

Theorem C26_stable es e st st' s n s0 v : run init_global es = Some st -> step st e = Some st' -> s < scope_count es ->
  found_var st s n = Some (s0, v) -> ~ matters es e s n s0 -> found_var st' s n = Some (s0, v).
Proof. exact (lookup_stable es e st st' s n s0 v). Qed.
Print Assumptions C26_stable.

(** extern x; { { x (7) } { use x, y } }; x defined; y. *)
Example C26_example :
  let ext := Storage true 0 in let def := Storage false 0 in
  let es := [DeclVar 0 (VarInfo 1 50 ext); Open 0; Open 1; DeclVar 2 (VarInfo 1 51 def); Open 1; DeclVar 0 (VarInfo 1 52 def);
             DeclVar 0 (VarInfo 1 53 ext); DeclVar 1 (VarInfo 2 54 def)] in
  exists st, run init_global es = Some st /\
  found_var st 2 1 = Some (2, VarInfo 1 51 def) /\ found_var st 3 1 = Some (0, VarInfo 1 52 def) /\
  found_var st 3 2 = Some (1, VarInfo 2 54 def) /\ found_var st 0 2 = None.
Proof. eexists. split; [reflexivity|]. by vm_compute. Qed.

Theorem C97_struct_tags es st s n : run init_global es = Some st -> s < scope_count es ->
  exists r, find_struct (enough st) st s n = Some r /\
    match r with
    | Some (i, s') => innermost es (declares_struct es n) s s' /\ last (struct_decls es s' n) = Some i
    | None => nowhere es (declares_struct es n) s
    end.
Proof. exact (struct_lookup es st s n). Qed.
Print Assumptions C97_struct_tags.

Theorem C97_enum_tags es st s n : run init_global es = Some st -> s < scope_count es ->
  exists r, find_enum (enough st) st s n = Some r /\
    match r with
    | Some i => exists s', innermost es (declares_enum es n) s s' /\ last (enum_decls es s' n) = Some i
    | None => nowhere es (declares_enum es n) s
    end.
Proof. exact (enum_lookup es st s n). Qed.
Print Assumptions C97_enum_tags.

(** A name is a typedef name where its innermost declaration as an ordinary identifier is one. *)
Theorem C97_typedef_names es st s n : run init_global es = Some st -> s < scope_count es ->
  exists r, find_typedef (enough st) st s n = Some r /\
    match r with
    | Some (t, s') => innermost es (declares_ordinary es n) s s' /\ head (typedef_decls es s' n) = Some t
    | None => nowhere es (declares_ordinary es n) s \/
        exists s', innermost es (declares_ordinary es n) s s' /\ typedef_decls es s' n = []
    end.
Proof. exact (typedef_lookup es st s n). Qed.
Print Assumptions C97_typedef_names.

(** typedef T; struct S; { int T; { T; } struct S; { S } } *)
Example C97_example :
  let es := [DeclTypedef 0 1 60; DeclStruct 0 2 70; Open 0; DeclVar 1 (VarInfo 1 50 (Storage false 0)); Open 1; DeclStruct 1 2 71; Open 0] in
  exists st, run init_global es = Some st /\
  find_typedef (enough st) st 2 1 = Some None /\ find_typedef (enough st) st 3 1 = Some (Some (60, 0)) /\
  find_struct (enough st) st 2 2 = Some (Some (71, 1)) /\ find_struct (enough st) st 3 2 = Some (Some (70, 0)).
Proof. eexists. split; [reflexivity|]. by vm_compute. Qed.

(** A typedef declaration takes effect when no typedef of that name is visible. *)
Theorem C98_typedef_partial same es st s n t complete : run init_global es = Some st -> s < scope_count es ->
  find_typedef (enough st) st s n = Some None -> var_decls es s n = [] ->
  exists st', def_type same st s n t complete = Some (st', Declared) /\ step st (DeclTypedef s n t) = Some st' /\
    find_typedef (enough st') st' s n = Some (Some (t, s)).
Proof. exact (def_type_ok same es st s n t complete). Qed.
Print Assumptions C98_typedef_partial.

(** typedef T1 T; { typedef T2 T; }: accepted without a message, and T is still T1 inside. *)
Theorem C98_typedef_refuted : exists es st st' s n t t', run init_global es = Some st /\
  typedef_decls es s n = [] /\ var_decls es s n = [] /\ t <> t' /\
  def_type Nat.eqb st s n t false = Some (st', Declared) /\ find_typedef (enough st') st' s n = Some (Some (t', 0)).
Proof.
  exists [DeclTypedef 0 1 60; Open 0]. eexists. eexists. exists 1, 1, 61, 60.
  split; [reflexivity|]. split; [done|]. split; [done|]. split; [done|]. split; [reflexivity|]. by vm_compute.
Qed.
Print Assumptions C98_typedef_refuted.

(** enum E in an inner scope, with an enum E outside: rejected. *)
Theorem C98_enum_tag_refuted : exists es st s n t, run init_global es = Some st /\ enum_decls es s n = [] /\
  enum_definition st s n t = Some (st, Rejected).
Proof. exists [DeclEnum 0 1 60; Open 0]. eexists. exists 1, 1, 61. split; [reflexivity|]. split; [done|]. by vm_compute. Qed.
Print Assumptions C98_enum_tag_refuted.

(** int x; { enum { x }; }: rejected. *)
Theorem C98_enum_constant_refuted : exists es st s v, run init_global es = Some st /\ var_decls es s (v_ident v) = [] /\
  typedef_decls es s (v_ident v) = [] /\ enum_member st s v = Some (st, Rejected).
Proof.
  exists [DeclVar 0 (VarInfo 1 50 (Storage false 0)); Open 0]. eexists. exists 1, (VarInfo 1 51 (Storage false 0)).
  split; [reflexivity|]. split; [done|]. split; [done|]. by vm_compute.
Qed.
Print Assumptions C98_enum_constant_refuted.

(** struct S *p; struct S { ... }; { struct S { ... }; *p }: [p], declared before the first
    definition, is taken to point to the inner struct S. *)
Theorem C98_incomplete_struct_refuted : exists es st outer inner n i, run init_global es = Some st /\
  find_struct (enough st) st outer n = Some (Some (i, outer)) /\ encloses es outer inner /\
  exists i', ensure_struct st inner n None = Some (Some i') /\ i' <> i.
Proof.
  exists [DeclStruct 0 1 70; Open 0; DeclStruct 1 1 71]. eexists. exists 0, 1, 1, 70. split; [reflexivity|]. split; [by vm_compute|].
  split; [eapply enc_outer; [reflexivity|constructor]|]. exists 71. split; [by vm_compute|done].
Qed.
Print Assumptions C98_incomplete_struct_refuted.
