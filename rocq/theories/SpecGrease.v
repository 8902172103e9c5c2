(** GREASE (section 13.5 of RFC 9420): C117. *)
From Verif Require Export SpecGroup SpecAgreement WellFormed Tree.

(** The values 0x0A0A, 0x1A1A, ..., 0xEAEA mean nothing and are there to be
    ignored. *)
Definition grease : list N :=
  [0x0A0A; 0x1A1A; 0x2A2A; 0x3A3A; 0x4A4A; 0x5A5A; 0x6A6A; 0x7A7A; 0x8A8A; 0x9A9A; 0xAAAA; 0xBABA; 0xCACA; 0xDADA; 0xEAEA].
Definition is_grease (v : N) : bool := existsb (N.eqb v) grease.

(** What is left of a list without such values *)
Definition meant (l : list N) : list N := filter (fun v => negb (is_grease v)) l.
Definition meant_extensions (l : list extension) : list extension := filter (fun e => negb (is_grease (ext_type e))) l.

Definition same_but_grease (l l' : list N) : Prop := meant l' = meant l.
Record capabilities_greased (c c' : capabilities) : Prop := {
  gr_versions : same_but_grease (caps_versions c) (caps_versions c');
  gr_suites : same_but_grease (caps_cipherSuites c) (caps_cipherSuites c');
  gr_extensions : same_but_grease (caps_extensions c) (caps_extensions c');
  gr_proposals : same_but_grease (caps_proposals c) (caps_proposals c');
  gr_credentials : same_but_grease (caps_credentials c) (caps_credentials c') }.

(** The leaf nodes are the same but for such values, and their signatures. *)
Record leaf_greased (l l' : leafNode) : Prop := {
  lg_encryptionKey : ln_encryptionKey l' = ln_encryptionKey l;
  lg_signatureKey : ln_signatureKey l' = ln_signatureKey l;
  lg_credential : ln_credential l' = ln_credential l;
  lg_source : ln_source l' = ln_source l;
  lg_lifetime : ln_lifetime l' = ln_lifetime l;
  lg_parentHash : ln_parentHash l' = ln_parentHash l;
  lg_capabilities : capabilities_greased (ln_capabilities l) (ln_capabilities l');
  lg_extensions : meant_extensions (ln_extensions l') = meant_extensions (ln_extensions l) }.

Record package_greased (k k' : keyPackage) : Prop := {
  kg_version : kp_version k' = kp_version k;
  kg_cipherSuite : kp_cipherSuite k' = kp_cipherSuite k;
  kg_initKey : kp_initKey k' = kp_initKey k;
  kg_leafNode : leaf_greased (kp_leafNode k) (kp_leafNode k');
  kg_extensions : meant_extensions (kp_extensions k') = meant_extensions (kp_extensions k) }.

Definition node_greased (o o' : option node) : Prop :=
  match o, o' with
  | Some (NLeaf l), Some (NLeaf l') => leaf_greased l l'
  | _, _ => o' = o
  end.

(** Section 13.5: extensions with such types are listed like all others. *)
Definition grease_listed (l : leafNode) : Prop :=
  forall e, In e (ln_extensions l) -> is_grease (ext_type e) = true -> In (ext_type e) (caps_extensions (ln_capabilities l)).
