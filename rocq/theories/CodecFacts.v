(** Round trip (RT), canonicity (CAN) and safety (SAFE) of every codec. *)
From Verif Require Export WireFacts WellFormed.

(** ** Reader combinators *)
Lemma rd_bind_ok {A B} (r : reader A) (k : A -> reader B) s x rest :
  rd_bind r k s = (Ok x, rest) -> exists a s', r s = (Ok a, s') /\ k a s' = (Ok x, rest).
Proof.
  unfold rd_bind. destruct (r s) as [[a|e|p|] s']; intros H; inversion H; eauto.
Qed.

Lemma rd_bind_eq {A B} (r : reader A) (k : A -> reader B) s a s' :
  r s = (Ok a, s') -> rd_bind r k s = k a s'.
Proof. unfold rd_bind. now intros ->. Qed.

(** Safety without the requirement to consume input *)
Definition SAFE0 {A} (r : reader A) : Prop :=
  forall s, match r s with
            | (Ok _, rest) | (Err _, rest) => (length rest <= length s)%nat
            | (Panic _, _) | (Hang, _) => False
            end.

Lemma SAFE_SAFE0 {A} (r : reader A) : SAFE r -> SAFE0 r.
Proof. intros H s. specialize (H s). destruct (r s) as [[]]; auto; lia. Qed.

Lemma SAFE_bind {A B} (r : reader A) (k : A -> reader B) :
  SAFE r -> (forall a, SAFE0 (k a)) -> SAFE (rd_bind r k).
Proof.
  intros Hr Hk s. unfold rd_bind. specialize (Hr s). destruct (r s) as [[a|e|p|] s']; auto.
  specialize (Hk a s'). destruct (k a s') as [[]]; auto; lia.
Qed.

Lemma SAFE_bind0 {A B} (r : reader A) (k : A -> reader B) :
  SAFE0 r -> (forall a, SAFE (k a)) -> SAFE (rd_bind r k).
Proof.
  intros Hr Hk s. unfold rd_bind. specialize (Hr s). destruct (r s) as [[a|e|p|] s']; auto.
  specialize (Hk a s'). destruct (k a s') as [[]]; auto; lia.
Qed.

Lemma SAFE0_bind {A B} (r : reader A) (k : A -> reader B) :
  SAFE0 r -> (forall a, SAFE0 (k a)) -> SAFE0 (rd_bind r k).
Proof.
  intros Hr Hk s. unfold rd_bind. specialize (Hr s). destruct (r s) as [[a|e|p|] s']; auto.
  specialize (Hk a s'). destruct (k a s') as [[]]; auto; lia.
Qed.

Lemma SAFE0_ret {A} (a : A) : SAFE0 (rd_ret a).
Proof. intros s. cbn. lia. Qed.
Lemma SAFE_err {A} e : SAFE (@rd_err A e).
Proof. intros s. cbn. lia. Qed.
Lemma SAFE0_err {A} e : SAFE0 (@rd_err A e).
Proof. intros s. cbn. lia. Qed.

Create HintDb safe.
#[export] Hint Resolve SAFE0_ret SAFE_err SAFE0_err readOpaqueVec_SAFE readOptional_SAFE readVector_SAFE : safe.

Lemma readUint8_SAFE : SAFE readUint8. Proof. apply readUint_SAFE; lia. Qed.
Lemma readUint16_SAFE : SAFE readUint16. Proof. apply readUint_SAFE; lia. Qed.
Lemma readUint32_SAFE : SAFE readUint32. Proof. apply readUint_SAFE; lia. Qed.
Lemma readUint64_SAFE : SAFE readUint64. Proof. apply readUint_SAFE; lia. Qed.
#[export] Hint Resolve readUint8_SAFE readUint16_SAFE readUint32_SAFE readUint64_SAFE : safe.

(** A safe reader is built from safe readers. *)
Ltac safe :=
  repeat first
    [ solve [auto with safe]
    | solve [apply SAFE_SAFE0; auto with safe]
    | match goal with
      | |- SAFE (if ?b then _ else _) => destruct b eqn:?
      | |- SAFE0 (if ?b then _ else _) => destruct b eqn:?
      | |- SAFE0 (match ?x with _ => _ end) => destruct x
      | |- SAFE (rd_bind _ _) => apply SAFE_bind; [solve [auto with safe] | intros ?]
      | |- SAFE0 (rd_bind _ _) => apply SAFE0_bind; [ | intros ?]
      end ].

(** Round trip of a primitive without side condition *)
Lemma opaque_rt v e rest : writeOpaqueVec v = Ok e -> readOpaqueVec (e ++ rest) = (Ok v, rest).
Proof. intros H. now apply readOpaqueVec_RT. Qed.
Lemma u8_rt n e rest : u8 n -> addUint8 n = Ok e -> readUint8 (e ++ rest) = (Ok n, rest).
Proof. apply (readUint_RT 1). Qed.
Lemma u16_rt n e rest : u16 n -> addUint16 n = Ok e -> readUint16 (e ++ rest) = (Ok n, rest).
Proof. apply (readUint_RT 2). Qed.
Lemma u32_rt n e rest : u32 n -> addUint32 n = Ok e -> readUint32 (e ++ rest) = (Ok n, rest).
Proof. apply (readUint_RT 4). Qed.
Lemma u64_rt n e rest : u64 n -> addUint64 n = Ok e -> readUint64 (e ++ rest) = (Ok n, rest).
Proof. apply (readUint_RT 8). Qed.
Lemma optional_rt b e rest : writeOptional b = Ok e -> readOptional (e ++ rest) = (Ok b, rest).
Proof. intros H. now apply readOptional_RT. Qed.

Lemma opaque_can s v rest : readOpaqueVec s = (Ok v, rest) -> exists e, writeOpaqueVec v = Ok e /\ s = e ++ rest.
Proof. intros H. apply readOpaqueVec_CAN in H. apply H. exact I. Qed.
Lemma u8_can s n rest : readUint8 s = (Ok n, rest) -> u8 n /\ exists e, addUint8 n = Ok e /\ s = e ++ rest.
Proof. intros H. apply (readUint_CAN 1) in H. destruct H as [H1 H2]. split; [exact H1|exact (H2 I)]. Qed.
Lemma u16_can s n rest : readUint16 s = (Ok n, rest) -> u16 n /\ exists e, addUint16 n = Ok e /\ s = e ++ rest.
Proof. intros H. apply (readUint_CAN 2) in H. destruct H as [H1 H2]. split; [exact H1|exact (H2 I)]. Qed.
Lemma u32_can s n rest : readUint32 s = (Ok n, rest) -> u32 n /\ exists e, addUint32 n = Ok e /\ s = e ++ rest.
Proof. intros H. apply (readUint_CAN 4) in H. destruct H as [H1 H2]. split; [exact H1|exact (H2 I)]. Qed.
Lemma u64_can s n rest : readUint64 s = (Ok n, rest) -> u64 n /\ exists e, addUint64 n = Ok e /\ s = e ++ rest.
Proof. intros H. apply (readUint_CAN 8) in H. destruct H as [H1 H2]. split; [exact H1|exact (H2 I)]. Qed.
Lemma optional_can s b rest : readOptional s = (Ok b, rest) -> exists e, writeOptional b = Ok e /\ s = e ++ rest.
Proof. intros H. apply readOptional_CAN in H. apply H. exact I. Qed.

(** Canonicity without exception *)
Definition CANT {A} (r : reader A) (w : A -> W) (wf : A -> Prop) : Prop :=
  forall s x rest, r s = (Ok x, rest) -> wf x /\ exists e, w x = Ok e /\ s = e ++ rest.

Lemma CANT_CAN {A} (r : reader A) w wf good : CANT r w wf -> CAN r w wf good.
Proof. intros H s x rest E. apply H in E. destruct E as [E1 E2]. auto. Qed.

Lemma CAN_CANT {A} (r : reader A) w wf : CAN r w wf (fun _ => True) -> CANT r w wf.
Proof. intros H s x rest E. apply H in E. destruct E as [E1 E2]. auto. Qed.

Lemma readVector_CANT {A} (r : reader A) w wf :
  CANT r w wf -> CANT (readVector r) (writeVector w) (Forall wf).
Proof.
  intros H s l rest E. apply (readVector_CAN r w wf (fun _ => True)) in E; [|now apply CANT_CAN].
  destruct E as [E1 E2]. split; auto. apply E2. clear. induction l; constructor; auto.
Qed.

(** Tags *)
Lemma getTag_ok k valid s t rest :
  getTag k valid s = (Ok t, rest) -> In t valid /\ readUint k s = (Ok t, rest).
Proof.
  unfold getTag. intros H. apply rd_bind_ok in H. destruct H as (a & s' & Ha & H).
  destruct (existsb (N.eqb a) valid) eqn:E; [|discriminate]. inversion H; subst.
  split; [|assumption]. apply existsb_exists in E. destruct E as (y & Hy & Heq).
  apply N.eqb_eq in Heq. now subst.
Qed.

Lemma getTag_rt k valid t e rest :
  In t valid -> t < 2 ^ (8 * N.of_nat k) -> Ok (be k t) = Ok e -> getTag k valid (e ++ rest) = (Ok t, rest).
Proof.
  intros Hin Ht He. unfold getTag.
  rewrite (rd_bind_eq _ _ _ _ _ (readUint_RT k t e rest Ht He)).
  destruct (existsb (N.eqb t) valid) eqn:E; [reflexivity|].
  exfalso. assert (existsb (N.eqb t) valid = true); [|congruence].
  apply existsb_exists. exists t. split; auto. apply N.eqb_refl.
Qed.

Lemma getTag_SAFE k valid : (0 < k)%nat -> SAFE (getTag k valid).
Proof. intros Hk. unfold getTag. apply SAFE_bind; [now apply readUint_SAFE|]. intros a. safe. Qed.

(** Tactics *)
Ltac unwapp :=
  repeat match goal with
  | H : _ +++ _ = Ok _ |- _ =>
    let x := fresh "e" in let y := fresh "e" in
    let H1 := fresh "W" in let H2 := fresh "W" in
    apply wapp_ok in H; destruct H as (x & y & H1 & H2 & ->)
  end.

Ltac splits := try red; repeat match goal with |- _ /\ _ => split end.
Ltac conj :=
  repeat match goal with H : _ /\ _ |- _ => destruct H end.

(** Read the next field of the input, using [rt] to find the round-trip fact. *)
Create HintDb rt.
#[export] Hint Resolve opaque_rt u8_rt u16_rt u32_rt u64_rt optional_rt : rt.

Ltac rt_step :=
  erewrite rd_bind_eq; [ | solve [ eauto with rt ] ]; cbv beta iota.
Ltac rt_run := rewrite <- ?app_assoc; repeat rt_step; try reflexivity.

Ltac split_binds H :=
  repeat match type of H with
  | rd_bind _ _ _ = (Ok _, _) =>
    let a := fresh "a" in let s' := fresh "s" in let Ha := fresh "R" in
    apply rd_bind_ok in H; destruct H as (a & s' & Ha & H); cbv beta in H
  end.

Ltac can_prims :=
  repeat match goal with
  | H : readOpaqueVec _ = (Ok _, _) |- _ => apply opaque_can in H; destruct H as (? & ? & ->)
  | H : readOptional _ = (Ok _, _) |- _ => apply optional_can in H; destruct H as (? & ? & ->)
  | H : readUint8 _ = (Ok _, _) |- _ => apply u8_can in H; destruct H as (? & ? & ? & ->)
  | H : readUint16 _ = (Ok _, _) |- _ => apply u16_can in H; destruct H as (? & ? & ? & ->)
  | H : readUint32 _ = (Ok _, _) |- _ => apply u32_can in H; destruct H as (? & ? & ? & ->)
  | H : readUint64 _ = (Ok _, _) |- _ => apply u64_can in H; destruct H as (? & ? & ? & ->)
  end.

Ltac wrewrite :=
  repeat match goal with H : ?w = Ok _ |- context [?w] => rewrite H end.
Ltac can_finish :=
  repeat match goal with H : ?w = Ok ?a, H' : ?w = Ok ?b |- _ =>
    tryif constr_eq a b then fail else (assert (a = b) by congruence; subst) end;
  eexists; split; [wrewrite; reflexivity | rewrite <- ?app_assoc; reflexivity].

(** ** Vectors of primitives *)
Lemma u16vec_rt l e rest : Forall u16 l -> writeVector addUint16 l = Ok e ->
  readVector readUint16 (e ++ rest) = (Ok l, rest).
Proof. apply readVector_RT; [exact (readUint_RT 2)|auto with safe]. Qed.
Lemma u32vec_rt l e rest : Forall u32 l -> writeVector addUint32 l = Ok e ->
  readVector readUint32 (e ++ rest) = (Ok l, rest).
Proof. apply readVector_RT; [exact (readUint_RT 4)|auto with safe]. Qed.
Lemma opaquevec_rt l e rest : writeVector writeOpaqueVec l = Ok e ->
  readVector readOpaqueVec (e ++ rest) = (Ok l, rest).
Proof.
  intros H. eapply readVector_RT; [exact readOpaqueVec_RT|auto with safe| |exact H].
  clear. induction l; constructor; auto.
Qed.
#[export] Hint Resolve u16vec_rt u32vec_rt opaquevec_rt : rt.

Lemma u16vec_can : CANT (readVector readUint16) (writeVector addUint16) (Forall u16).
Proof. apply readVector_CANT. intros s x rest H. now apply u16_can. Qed.
Lemma u32vec_can : CANT (readVector readUint32) (writeVector addUint32) (Forall u32).
Proof. apply readVector_CANT. intros s x rest H. now apply u32_can. Qed.
Lemma opaquevec_can s l rest : readVector readOpaqueVec s = (Ok l, rest) ->
  exists e, writeVector writeOpaqueVec l = Ok e /\ s = e ++ rest.
Proof.
  intros H. apply (readVector_CANT readOpaqueVec writeOpaqueVec (fun _ => True)) in H.
  - apply H.
  - intros s' x r E. split; auto. now apply opaque_can.
Qed.

(** ** crypto.go *)
Lemma credential_RT : RT getCredential putCredential wf_credential.
Proof.
  intros [t i c] e rest [[Ht Hc]|[Ht Hc]] He; cbn [cred_type cred_identity cred_certificates] in *; subst;
    unfold putCredential in He; cbn [cred_type cred_identity cred_certificates] in He; unwapp;
    unfold getCredential; rewrite <- app_assoc.
  - assert (u16 1) by reflexivity. rt_step. change (1 =? 1) with true in *. cbv iota in *. rt_run.
  - assert (u16 2) by reflexivity. rt_step. change (2 =? 1) with false in *. change (2 =? 2) with true in *.
    cbv iota in *. rt_run.
Qed.
Lemma credential_rt c e rest : wf_credential c -> putCredential c = Ok e -> getCredential (e ++ rest) = (Ok c, rest).
Proof. apply credential_RT. Qed.
#[export] Hint Resolve credential_rt : rt.

Lemma credential_CANT : CANT getCredential putCredential wf_credential.
Proof.
  intros s x rest H. unfold getCredential in H. apply rd_bind_ok in H. destruct H as (t & s' & Ht & H).
  apply u16_can in Ht. destruct Ht as (Hu & e & He & ->).
  destruct (N.eqb_spec t 1) as [->|Hn1].
  - split_binds H. can_prims. inversion H; subst. split; [left; auto|].
    unfold putCredential; cbn [cred_type cred_identity]. change (1 =? 1) with true; cbv iota. can_finish.
  - destruct (N.eqb_spec t 2) as [->|Hn2]; [|discriminate].
    split_binds H. apply opaquevec_can in R. destruct R as (e2 & He2 & ->). inversion H; subst. split; [right; auto|].
    unfold putCredential; cbn [cred_type cred_certificates]. change (2 =? 1) with false; change (2 =? 2) with true; cbv iota. can_finish.
Qed.

Lemma credential_SAFE : SAFE getCredential.
Proof. unfold getCredential. safe. Qed.
#[export] Hint Resolve credential_SAFE : safe.

Lemma hpkeCiphertext_RT : RT getHpkeCiphertext putHpkeCiphertext (fun _ => True).
Proof.
  intros [k c] e rest _ He. unfold putHpkeCiphertext in He; cbn [hc_kemOutput hc_ciphertext] in He. unwapp.
  unfold getHpkeCiphertext. rt_run.
Qed.
Lemma hpkeCiphertext_rt c e rest : putHpkeCiphertext c = Ok e -> getHpkeCiphertext (e ++ rest) = (Ok c, rest).
Proof. intros. now apply hpkeCiphertext_RT. Qed.
#[export] Hint Resolve hpkeCiphertext_rt : rt.
Lemma hpkeCiphertext_CANT : CANT getHpkeCiphertext putHpkeCiphertext (fun _ => True).
Proof.
  intros s x rest H. unfold getHpkeCiphertext in H. split_binds H. can_prims. inversion H; subst. split; auto.
  unfold putHpkeCiphertext; cbn [hc_kemOutput hc_ciphertext]. can_finish.
Qed.
Lemma hpkeCiphertext_SAFE : SAFE getHpkeCiphertext.
Proof. unfold getHpkeCiphertext. safe. Qed.
#[export] Hint Resolve hpkeCiphertext_SAFE : safe.

(** ** tree.go *)
Lemma extension_RT : RT getExtension putExtension wf_extension.
Proof.
  intros [t d] e rest Hw He. unfold putExtension, wf_extension in *; cbn [ext_type ext_data] in *. unwapp.
  unfold getExtension. rt_run.
Qed.
Lemma extension_CANT : CANT getExtension putExtension wf_extension.
Proof.
  intros s x rest H. unfold getExtension in H. split_binds H. can_prims. inversion H; subst. split; [assumption|].
  unfold putExtension; cbn [ext_type ext_data]. can_finish.
Qed.
Lemma extension_SAFE : SAFE getExtension.
Proof. unfold getExtension. safe. Qed.
#[export] Hint Resolve extension_SAFE : safe.
Lemma extensionVec_rt l e rest : Forall wf_extension l -> putExtensionVec l = Ok e ->
  getExtensionVec (e ++ rest) = (Ok l, rest).
Proof. apply readVector_RT; [exact extension_RT|auto with safe]. Qed.
#[export] Hint Resolve extensionVec_rt : rt.
Lemma extensionVec_CANT : CANT getExtensionVec putExtensionVec (Forall wf_extension).
Proof. apply readVector_CANT, extension_CANT. Qed.
Lemma extensionVec_SAFE : SAFE getExtensionVec.
Proof. unfold getExtensionVec. safe. Qed.
#[export] Hint Resolve extensionVec_SAFE : safe.

Lemma capabilities_RT : RT getCapabilities putCapabilities wf_capabilities.
Proof.
  intros [a b c d f] e rest Hw He. unfold putCapabilities, wf_capabilities in *.
  cbn [caps_versions caps_cipherSuites caps_extensions caps_proposals caps_credentials] in *. conj. unwapp.
  unfold getCapabilities. rt_run.
Qed.
Lemma capabilities_rt c e rest : wf_capabilities c -> putCapabilities c = Ok e -> getCapabilities (e ++ rest) = (Ok c, rest).
Proof. apply capabilities_RT. Qed.
#[export] Hint Resolve capabilities_rt : rt.
Lemma capabilities_CANT : CANT getCapabilities putCapabilities wf_capabilities.
Proof.
  intros s x rest H. unfold getCapabilities in H. split_binds H.
  repeat match goal with H : readVector readUint16 _ = _ |- _ => apply u16vec_can in H; destruct H as (? & ? & ? & ->) end.
  inversion H; subst. split; [repeat split; assumption|].
  unfold putCapabilities; cbn [caps_versions caps_cipherSuites caps_extensions caps_proposals caps_credentials]. can_finish.
Qed.
Lemma capabilities_SAFE : SAFE getCapabilities.
Proof. unfold getCapabilities. safe. Qed.
#[export] Hint Resolve capabilities_SAFE : safe.

Lemma lifetime_RT : RT getLifetime putLifetime wf_lifetime.
Proof.
  intros [a b] e rest Hw He. unfold putLifetime, wf_lifetime in *; cbn [lt_notBefore lt_notAfter] in *. conj. unwapp.
  unfold getLifetime. rt_run.
Qed.
Lemma lifetime_rt c e rest : wf_lifetime c -> putLifetime c = Ok e -> getLifetime (e ++ rest) = (Ok c, rest).
Proof. apply lifetime_RT. Qed.
#[export] Hint Resolve lifetime_rt : rt.
Lemma lifetime_CANT : CANT getLifetime putLifetime wf_lifetime.
Proof.
  intros s x rest H. unfold getLifetime in H. split_binds H. can_prims. inversion H; subst. split; [split; assumption|].
  unfold putLifetime; cbn [lt_notBefore lt_notAfter]. can_finish.
Qed.
Lemma lifetime_SAFE : SAFE getLifetime.
Proof. unfold getLifetime. safe. Qed.
#[export] Hint Resolve lifetime_SAFE : safe.

Lemma getTag1_SAFE v : SAFE (getTag 1 v). Proof. apply getTag_SAFE; lia. Qed.
Lemma getTag2_SAFE v : SAFE (getTag 2 v). Proof. apply getTag_SAFE; lia. Qed.
#[export] Hint Resolve getTag1_SAFE getTag2_SAFE : safe.

Lemma tag1_rt valid t e rest : In t valid -> u8 t -> addUint8 t = Ok e -> getTag 1 valid (e ++ rest) = (Ok t, rest).
Proof. intros. apply getTag_rt; auto. Qed.
Lemma tag2_rt valid t e rest : In t valid -> u16 t -> addUint16 t = Ok e -> getTag 2 valid (e ++ rest) = (Ok t, rest).
Proof. intros. apply getTag_rt; auto. Qed.
Lemma tag1_can valid s t rest : getTag 1 valid s = (Ok t, rest) -> In t valid /\ exists e, addUint8 t = Ok e /\ s = e ++ rest.
Proof. intros H. apply getTag_ok in H. destruct H as [Hin H]. split; auto. apply u8_can in H. apply H. Qed.
Lemma tag2_can valid s t rest : getTag 2 valid s = (Ok t, rest) -> In t valid /\ exists e, addUint16 t = Ok e /\ s = e ++ rest.
Proof. intros H. apply getTag_ok in H. destruct H as [Hin H]. split; auto. apply u16_can in H. apply H. Qed.

Ltac tagb := cbn [N.eqb Pos.eqb negb] in *.
Ltac tag_step :=
  erewrite rd_bind_eq;
  [ | first [eapply tag1_rt | eapply tag2_rt]; cycle 2; [eassumption | cbn; auto 10 | reflexivity] ]; tagb.

Lemma SAFE_tag {B} k valid (f : N -> reader B) :
  (0 < k)%nat -> (forall t, In t valid -> SAFE0 (f t)) -> SAFE (rd_bind (getTag k valid) f).
Proof.
  intros Hk H s. unfold rd_bind. pose proof (getTag_SAFE k valid Hk s) as Hs.
  destruct (getTag k valid s) as [[t|e|p|] s'] eqn:E; auto.
  apply getTag_ok in E. specialize (H t (proj1 E) s'). destruct (f t s') as [[]]; auto; lia.
Qed.
Ltac safe_tag :=
  apply SAFE_tag; [lia|]; cbn [In]; intros t Ht;
  repeat (destruct Ht as [<-|Ht]); [ .. | destruct Ht]; tagb; safe.

Lemma leafNode_RT : RT getLeafNode putLeafNode wf_leafNode.
Proof.
  intros [ek sk cr cap src lt ph ex sig] e rest Hw He. unfold putLeafNode, putLeafNodeBase, wf_leafNode in *.
  cbn [ln_encryptionKey ln_signatureKey ln_credential ln_capabilities ln_source ln_lifetime ln_parentHash ln_extensions ln_signature] in *.
  destruct Hw as (Hcr & Hcap & Hex & Hsrc). unwapp. unfold getLeafNode. rewrite <- ?app_assoc.
  do 4 rt_step.
  destruct Hsrc as [(-> & (l & -> & Hl) & ->) | [(-> & -> & ->) | (-> & ->)]]; tag_step.
  - erewrite rd_bind_eq; [|rt_run]. rewrite (rd_bind_eq (rd_ret []) _ _ [] _ eq_refl). rt_run.
  - match goal with H : Ok [] = Ok ?x |- _ => inversion H; subst end.
    erewrite rd_bind_eq; [|reflexivity]. erewrite rd_bind_eq; [|reflexivity]. cbn [app]. rt_run.
  - erewrite rd_bind_eq; [|reflexivity]. rt_run.
Qed.
Lemma leafNode_rt c e rest : wf_leafNode c -> putLeafNode c = Ok e -> getLeafNode (e ++ rest) = (Ok c, rest).
Proof. apply leafNode_RT. Qed.
#[export] Hint Resolve leafNode_rt : rt.

Ltac can_with L :=
  match goal with H : _ _ = (Ok _, _) |- _ => apply L in H; destruct H as (? & ? & ? & ->) end.
Ltac can_all L := repeat can_with L.

Lemma leafNode_CANT : CANT getLeafNode putLeafNode wf_leafNode.
Proof.
  intros s x rest H. unfold getLeafNode in H. split_binds H. inversion H; subst. clear H.
  can_with extensionVec_CANT. can_with capabilities_CANT. can_with credential_CANT.
  apply tag1_can in R3. destruct R3 as (Hin & e & He & ->).
  unfold wf_leafNode, putLeafNode, putLeafNodeBase.
  cbn [ln_encryptionKey ln_signatureKey ln_credential ln_capabilities ln_source ln_lifetime ln_parentHash ln_extensions ln_signature].
  destruct Hin as [<-|[<-|[<-|[]]]]; tagb.
  - apply rd_bind_ok in R4. destruct R4 as (lt & s' & R4 & Q). inversion Q; subst. inversion R5; subst.
    can_with lifetime_CANT. can_prims. split; [|can_finish]. splits; auto. left. splits; eauto.
  - inversion R4; subst. inversion R5; subst. can_prims. split; [|can_finish]. splits; auto.
  - inversion R4; subst. can_prims. split; [|can_finish]. splits; auto.
Qed.
Lemma leafNode_SAFE : SAFE getLeafNode.
Proof. unfold getLeafNode. safe. Qed.
#[export] Hint Resolve leafNode_SAFE : safe.

Lemma parentNode_RT : RT getParentNode putParentNode wf_parentNode.
Proof.
  intros [ek ph um] e rest Hw He. unfold putParentNode, wf_parentNode in *.
  cbn [pn_encryptionKey pn_parentHash pn_unmergedLeaves] in *. unwapp. unfold getParentNode. rt_run.
Qed.
Lemma parentNode_rt c e rest : wf_parentNode c -> putParentNode c = Ok e -> getParentNode (e ++ rest) = (Ok c, rest).
Proof. apply parentNode_RT. Qed.
#[export] Hint Resolve parentNode_rt : rt.
Lemma parentNode_CANT : CANT getParentNode putParentNode wf_parentNode.
Proof.
  intros s x rest H. unfold getParentNode in H. split_binds H. can_with u32vec_can. can_prims. inversion H; subst.
  split; [assumption|]. unfold putParentNode; cbn [pn_encryptionKey pn_parentHash pn_unmergedLeaves]. can_finish.
Qed.
Lemma parentNode_SAFE : SAFE getParentNode.
Proof. unfold getParentNode. safe. Qed.
#[export] Hint Resolve parentNode_SAFE : safe.

Lemma node_RT : RT getNode putNode wf_node.
Proof.
  intros [l|p] e rest Hw He; cbn [putNode wf_node] in *; unwapp; unfold getNode; rewrite <- ?app_assoc; tag_step; rt_run.
Qed.
Lemma node_rt c e rest : wf_node c -> putNode c = Ok e -> getNode (e ++ rest) = (Ok c, rest).
Proof. apply node_RT. Qed.
#[export] Hint Resolve node_rt : rt.
Lemma node_CANT : CANT getNode putNode wf_node.
Proof.
  intros s x rest H. unfold getNode in H. apply rd_bind_ok in H. destruct H as (t & s' & Ht & H).
  apply tag1_can in Ht. destruct Ht as (Hin & e & He & ->).
  destruct Hin as [<-|[<-|[]]]; tagb; split_binds H; inversion H; subst.
  - can_with leafNode_CANT. split; [assumption|]. cbn [putNode]. can_finish.
  - can_with parentNode_CANT. split; [assumption|]. cbn [putNode]. can_finish.
Qed.
Lemma node_SAFE : SAFE getNode.
Proof. unfold getNode. safe_tag. Qed.
#[export] Hint Resolve node_SAFE : safe.

Lemma optionalNode_RT : RT getOptionalNode putOptionalNode wf_optionalNode.
Proof.
  intros [n|] e rest Hw He; cbn [putOptionalNode wf_optionalNode] in *; unwapp; unfold getOptionalNode; rt_run.
Qed.
Lemma optionalNode_CANT : CANT getOptionalNode putOptionalNode wf_optionalNode.
Proof.
  intros s x rest H. unfold getOptionalNode in H. apply rd_bind_ok in H. destruct H as (t & s' & Ht & H). can_prims.
  destruct t; split_binds H; inversion H; subst.
  - can_with node_CANT. split; [assumption|]. cbn [putOptionalNode]. can_finish.
  - split; [exact I|]. cbn [putOptionalNode]. can_finish.
Qed.
Lemma optionalNode_SAFE : SAFE getOptionalNode.
Proof. unfold getOptionalNode. safe. Qed.
#[export] Hint Resolve optionalNode_SAFE : safe.

Lemma Forall_true {A} (l : list A) : Forall (fun _ => True) l.
Proof. induction l; constructor; auto. Qed.
#[export] Hint Resolve Forall_true : core.

Lemma hpkeVec_rt l e rest : writeVector putHpkeCiphertext l = Ok e ->
  readVector getHpkeCiphertext (e ++ rest) = (Ok l, rest).
Proof. intros H. eapply readVector_RT; [exact hpkeCiphertext_RT|auto with safe|auto|exact H]. Qed.
#[export] Hint Resolve hpkeVec_rt : rt.
Lemma hpkeVec_CANT : CANT (readVector getHpkeCiphertext) (writeVector putHpkeCiphertext) (Forall (fun _ => True)).
Proof. apply readVector_CANT, hpkeCiphertext_CANT. Qed.

Lemma updatePathNode_RT : RT getUpdatePathNode putUpdatePathNode (fun _ => True).
Proof.
  intros [k l] e rest _ He. unfold putUpdatePathNode in He; cbn [upn_encryptionKey upn_encryptedPathSecret] in He.
  unwapp. unfold getUpdatePathNode. rt_run.
Qed.
Lemma updatePathNode_CANT : CANT getUpdatePathNode putUpdatePathNode (fun _ => True).
Proof.
  intros s x rest H. unfold getUpdatePathNode in H. split_binds H. can_with hpkeVec_CANT. can_prims. inversion H; subst.
  split; [exact I|]. unfold putUpdatePathNode; cbn [upn_encryptionKey upn_encryptedPathSecret]. can_finish.
Qed.
Lemma updatePathNode_SAFE : SAFE getUpdatePathNode.
Proof. unfold getUpdatePathNode. safe. Qed.
#[export] Hint Resolve updatePathNode_SAFE : safe.
Lemma updatePathNodeVec_rt l e rest : writeVector putUpdatePathNode l = Ok e ->
  readVector getUpdatePathNode (e ++ rest) = (Ok l, rest).
Proof. intros H. eapply readVector_RT; [exact updatePathNode_RT|auto with safe|auto|exact H]. Qed.
#[export] Hint Resolve updatePathNodeVec_rt : rt.
Lemma updatePathNodeVec_CANT : CANT (readVector getUpdatePathNode) (writeVector putUpdatePathNode) (Forall (fun _ => True)).
Proof. apply readVector_CANT, updatePathNode_CANT. Qed.

Lemma updatePath_RT : RT getUpdatePath putUpdatePath wf_updatePath.
Proof.
  intros [l n] e rest Hw He. unfold putUpdatePath, wf_updatePath in *; cbn [up_leafNode up_nodes] in *.
  unwapp. unfold getUpdatePath. rt_run.
Qed.
Lemma updatePath_rt c e rest : wf_updatePath c -> putUpdatePath c = Ok e -> getUpdatePath (e ++ rest) = (Ok c, rest).
Proof. apply updatePath_RT. Qed.
#[export] Hint Resolve updatePath_rt : rt.
Lemma updatePath_CANT : CANT getUpdatePath putUpdatePath wf_updatePath.
Proof.
  intros s x rest H. unfold getUpdatePath in H. split_binds H. can_with leafNode_CANT. can_with updatePathNodeVec_CANT.
  inversion H; subst. split; [assumption|]. unfold putUpdatePath; cbn [up_leafNode up_nodes]. can_finish.
Qed.
Lemma updatePath_SAFE : SAFE getUpdatePath.
Proof. unfold getUpdatePath. safe. Qed.
#[export] Hint Resolve updatePath_SAFE : safe.

(** ** key_schedule.go *)
Lemma pskID_RT : RT getPskID putPskID wf_pskID.
Proof.
  intros [id nc|u g ep nc] e rest Hw He; cbn [putPskID wf_pskID] in *; unwapp; unfold getPskID; rewrite <- ?app_assoc.
  - tag_step. rt_run.
  - destruct Hw as [Hu Hep]. tag_step.
    erewrite rd_bind_eq; [|eapply tag1_rt; cycle 2; [eassumption|cbn; intuition auto|destruct Hu as [->|[->| ->]]; reflexivity]].
    rt_run.
Qed.
Lemma pskID_rt c e rest : wf_pskID c -> putPskID c = Ok e -> getPskID (e ++ rest) = (Ok c, rest).
Proof. apply pskID_RT. Qed.
#[export] Hint Resolve pskID_rt : rt.
Lemma pskID_CANT : CANT getPskID putPskID wf_pskID.
Proof.
  intros s x rest H. unfold getPskID in H. apply rd_bind_ok in H. destruct H as (t & s' & Ht & H).
  apply tag1_can in Ht. destruct Ht as (Hin & e & He & ->).
  destruct Hin as [<-|[<-|[]]]; tagb; split_binds H; inversion H; subst.
  - can_prims. split; [exact I|]. cbn [putPskID]. can_finish.
  - apply tag1_can in R. destruct R as (Hin & e2 & He2 & ->). can_prims. split.
    + cbn [wf_pskID]. split; auto. cbn in Hin. intuition auto.
    + cbn [putPskID]. can_finish.
Qed.
Lemma pskID_SAFE : SAFE getPskID.
Proof. unfold getPskID. safe_tag. Qed.
#[export] Hint Resolve pskID_SAFE : safe.
Lemma pskIDVec_rt l e rest : Forall wf_pskID l -> writeVector putPskID l = Ok e ->
  readVector getPskID (e ++ rest) = (Ok l, rest).
Proof. apply readVector_RT; [exact pskID_RT|auto with safe]. Qed.
#[export] Hint Resolve pskIDVec_rt : rt.
Lemma pskIDVec_CANT : CANT (readVector getPskID) (writeVector putPskID) (Forall wf_pskID).
Proof. apply readVector_CANT, pskID_CANT. Qed.

Lemma groupContext_RT : RT getGroupContext putGroupContext wf_groupContext.
Proof.
  intros [v cs g ep th ct ex] e rest Hw He. unfold putGroupContext, wf_groupContext in *.
  cbn [gc_version gc_cipherSuite gc_groupID gc_epoch gc_treeHash gc_confirmedTranscriptHash gc_extensions] in *. conj; subst. unwapp.
  unfold getGroupContext. assert (u16 1) by reflexivity. rewrite <- ?app_assoc. do 6 rt_step. tagb. rt_run.
Qed.
Lemma groupContext_rt c e rest : wf_groupContext c -> putGroupContext c = Ok e -> getGroupContext (e ++ rest) = (Ok c, rest).
Proof. apply groupContext_RT. Qed.
#[export] Hint Resolve groupContext_rt : rt.
Lemma groupContext_CANT : CANT getGroupContext putGroupContext wf_groupContext.
Proof.
  intros s x rest H. unfold getGroupContext in H. split_binds H.
  destruct (N.eqb_spec a 1) as [->|]; [|discriminate]. cbn [negb] in H. split_binds H. can_with extensionVec_CANT. can_prims.
  inversion H; subst. split; [splits; auto|]. unfold putGroupContext.
  cbn [gc_version gc_cipherSuite gc_groupID gc_epoch gc_treeHash gc_confirmedTranscriptHash gc_extensions]. can_finish.
Qed.
Lemma groupContext_SAFE : SAFE getGroupContext.
Proof. unfold getGroupContext. safe. Qed.
#[export] Hint Resolve groupContext_SAFE : safe.

(** ** Key packages.  [good_keyPackage]: the signature was really there. *)

Lemma opaqueIF_rt v e rest : writeOpaqueVec v = Ok e -> readOpaqueVecIgnoringFailure (e ++ rest) = (Ok v, rest).
Proof. intros H. unfold readOpaqueVecIgnoringFailure. now rewrite (opaque_rt _ _ _ H). Qed.
#[export] Hint Resolve opaqueIF_rt : rt.
Lemma opaqueIF_can s v rest : readOpaqueVecIgnoringFailure s = (Ok v, rest) ->
  (exists e, writeOpaqueVec v = Ok e) /\ (v <> [] -> exists e, writeOpaqueVec v = Ok e /\ s = e ++ rest).
Proof.
  unfold readOpaqueVecIgnoringFailure. destruct (readOpaqueVec s) as [[x|x|x|] s'] eqn:E; intros H; inversion H; subst.
  - apply opaque_can in E. destruct E as (e & He & ->). eauto.
  - split; [|congruence]. eexists. reflexivity.
Qed.
Lemma opaqueIF_SAFE0 : SAFE0 readOpaqueVecIgnoringFailure.
Proof.
  intros s. unfold readOpaqueVecIgnoringFailure. pose proof (readOpaqueVec_SAFE s) as H.
  destruct (readOpaqueVec s) as [[]]; auto; lia.
Qed.
#[export] Hint Resolve opaqueIF_SAFE0 : safe.

Lemma keyPackage_RT : RT getKeyPackage putKeyPackage wf_keyPackage.
Proof.
  intros [v cs ik l ex sig] e rest Hw He. unfold putKeyPackage, putKeyPackageTBS, wf_keyPackage in *.
  cbn [kp_version kp_cipherSuite kp_initKey kp_leafNode kp_extensions kp_signature] in *. conj; subst. unwapp.
  unfold getKeyPackage. assert (u16 1) by reflexivity. rewrite <- ?app_assoc. do 3 rt_step. tagb. rt_run.
Qed.
Lemma keyPackage_rt c e rest : wf_keyPackage c -> putKeyPackage c = Ok e -> getKeyPackage (e ++ rest) = (Ok c, rest).
Proof. apply keyPackage_RT. Qed.
#[export] Hint Resolve keyPackage_rt : rt.
Lemma keyPackage_dec s x rest : getKeyPackage s = (Ok x, rest) ->
  wf_keyPackage x /\ (exists e, putKeyPackage x = Ok e) /\
  (good_keyPackage x -> exists e, putKeyPackage x = Ok e /\ s = e ++ rest).
Proof.
  intros H. unfold getKeyPackage in H. split_binds H.
  destruct (N.eqb_spec a 1) as [->|]; [|discriminate]. cbn [negb] in H. split_binds H.
  can_with extensionVec_CANT. can_with leafNode_CANT. can_prims. apply opaqueIF_can in R4.
  destruct R4 as [(es & Hes) R4]. inversion H; subst. split; [splits; auto|]. unfold putKeyPackage, putKeyPackageTBS, good_keyPackage.
  cbn [kp_version kp_cipherSuite kp_initKey kp_leafNode kp_extensions kp_signature]. split.
  - eexists. wrewrite. reflexivity.
  - intros Hg. destruct (R4 Hg) as (es' & Hes' & ->). clear Hes. can_finish.
Qed.
Lemma keyPackage_CAN : CAN getKeyPackage putKeyPackage wf_keyPackage good_keyPackage.
Proof. intros s x rest H. apply keyPackage_dec in H. tauto. Qed.
Lemma keyPackage_SAFE : SAFE getKeyPackage.
Proof. unfold getKeyPackage. safe. Qed.
#[export] Hint Resolve keyPackage_SAFE : safe.

(** ** Proposals *)
Lemma reInit_RT : RT getReInit putReInit wf_reInit.
Proof.
  intros [g v cs ex] e rest Hw He. unfold putReInit, wf_reInit in *.
  cbn [ri_groupID ri_version ri_cipherSuite ri_extensions] in *. conj. unwapp. unfold getReInit. rt_run.
Qed.
Lemma reInit_rt c e rest : wf_reInit c -> putReInit c = Ok e -> getReInit (e ++ rest) = (Ok c, rest).
Proof. apply reInit_RT. Qed.
#[export] Hint Resolve reInit_rt : rt.
Lemma reInit_CANT : CANT getReInit putReInit wf_reInit.
Proof.
  intros s x rest H. unfold getReInit in H. split_binds H. can_with extensionVec_CANT. can_prims.
  inversion H; subst. split; [splits; auto|]. unfold putReInit.
  cbn [ri_groupID ri_version ri_cipherSuite ri_extensions]. can_finish.
Qed.
Lemma reInit_SAFE : SAFE getReInit.
Proof. unfold getReInit. safe. Qed.
#[export] Hint Resolve reInit_SAFE : safe.


Lemma proposal_RT : RT getProposal putProposal wf_proposal.
Proof.
  intros p e rest Hw He. unfold putProposal in He.
  destruct p; cbn [proposal_type wf_proposal] in *; unwapp; unfold getProposal; rewrite <- ?app_assoc; tag_step; rt_run.
Qed.
Lemma proposal_rt c e rest : wf_proposal c -> putProposal c = Ok e -> getProposal (e ++ rest) = (Ok c, rest).
Proof. apply proposal_RT. Qed.
#[export] Hint Resolve proposal_rt : rt.
Lemma proposal_CAN : CAN getProposal putProposal wf_proposal good_proposal.
Proof.
  intros s x rest H. unfold getProposal in H. apply rd_bind_ok in H. destruct H as (t & s' & Ht & H).
  apply tag2_can in Ht. destruct Ht as (Hin & e & He & ->).
  destruct Hin as [<-|[<-|[<-|[<-|[<-|[<-|[<-|[]]]]]]]]; tagb; split_binds H; inversion H; subst;
    unfold putProposal; cbn [wf_proposal good_proposal proposal_type].
  - apply keyPackage_dec in R. destruct R as (Hw & _ & R). split; auto. intros Hg. destruct (R Hg) as (e' & He' & ->). can_finish.
  - can_with leafNode_CANT. split; auto. intros _. can_finish.
  - can_prims. split; auto. intros _. can_finish.
  - can_with pskID_CANT. split; auto. intros _. can_finish.
  - can_with reInit_CANT. split; auto. intros _. can_finish.
  - can_prims. split; auto. intros _. can_finish.
  - can_with extensionVec_CANT. split; auto. intros _. can_finish.
Qed.
Lemma proposal_SAFE : SAFE getProposal.
Proof. unfold getProposal. safe_tag. Qed.
#[export] Hint Resolve proposal_SAFE : safe.

Lemma proposalOrRef_RT : RT getProposalOrRef putProposalOrRef wf_proposalOrRef.
Proof.
  intros p e rest Hw He. destruct p; cbn [putProposalOrRef wf_proposalOrRef] in *; unwapp; unfold getProposalOrRef;
    rewrite <- ?app_assoc; tag_step; rt_run.
Qed.
Lemma proposalOrRef_CAN : CAN getProposalOrRef putProposalOrRef wf_proposalOrRef good_proposalOrRef.
Proof.
  intros s x rest H. unfold getProposalOrRef in H. apply rd_bind_ok in H. destruct H as (t & s' & Ht & H).
  apply tag1_can in Ht. destruct Ht as (Hin & e & He & ->).
  destruct Hin as [<-|[<-|[]]]; tagb; split_binds H; inversion H; subst; cbn [wf_proposalOrRef good_proposalOrRef putProposalOrRef].
  - apply proposal_CAN in R. destruct R as (Hw & R). split; auto. intros Hg. destruct (R Hg) as (e' & He' & ->). can_finish.
  - can_prims. split; auto. intros _. can_finish.
Qed.
Lemma proposalOrRef_SAFE : SAFE getProposalOrRef.
Proof. unfold getProposalOrRef. safe_tag. Qed.
#[export] Hint Resolve proposalOrRef_SAFE : safe.
Lemma proposalOrRefVec_rt l e rest : Forall wf_proposalOrRef l -> writeVector putProposalOrRef l = Ok e ->
  readVector getProposalOrRef (e ++ rest) = (Ok l, rest).
Proof. apply readVector_RT; [exact proposalOrRef_RT|auto with safe]. Qed.
#[export] Hint Resolve proposalOrRefVec_rt : rt.

(** ** group.go *)
Lemma commit_RT : RT getCommit putCommit wf_commit.
Proof.
  intros [ps [u|]] e rest Hw He; unfold putCommit, wf_commit in *; cbn [c_proposals c_path] in *; conj; unwapp;
    unfold getCommit; rewrite <- ?app_assoc; do 2 rt_step; cbv iota.
  - erewrite rd_bind_eq; [|rt_run]. rt_run.
  - rt_run.
Qed.
Lemma commit_rt c e rest : wf_commit c -> putCommit c = Ok e -> getCommit (e ++ rest) = (Ok c, rest).
Proof. apply commit_RT. Qed.
#[export] Hint Resolve commit_rt : rt.
Lemma commit_CAN : CAN getCommit putCommit wf_commit good_commit.
Proof.
  intros s x rest H. unfold getCommit in H. split_binds H. inversion H; subst.
  apply (readVector_CAN _ _ _ _ proposalOrRef_CAN) in R. destruct R as (Hw & R). can_prims.
  unfold wf_commit, good_commit, putCommit; cbn [c_proposals c_path].
  destruct a0; split_binds R1; inversion R1; subst.
  - can_with updatePath_CANT. split; auto. intros Hg. destruct (R Hg) as (e' & He' & ->). can_finish.
  - split; auto. intros Hg. destruct (R Hg) as (e' & He' & ->). can_finish.
Qed.
Lemma commit_SAFE : SAFE getCommit.
Proof. unfold getCommit. safe. Qed.
#[export] Hint Resolve commit_SAFE : safe.

Lemma groupInfo_RT : RT getGroupInfo putGroupInfo wf_groupInfo.
Proof.
  intros [c ex t sg si] e rest Hw He. unfold putGroupInfo, putGroupInfoTBS, wf_groupInfo in *.
  cbn [gi_groupContext gi_extensions gi_confirmationTag gi_signer gi_signature] in *. conj. unwapp.
  unfold getGroupInfo. rewrite <- ?app_assoc. do 2 rt_step. unfold rd_bind, getGroupInfoTail.
  erewrite opaque_rt by eauto. erewrite u32_rt by eauto. erewrite opaque_rt by eauto. reflexivity.
Qed.
Lemma groupInfo_rt c e rest : wf_groupInfo c -> putGroupInfo c = Ok e -> getGroupInfo (e ++ rest) = (Ok c, rest).
Proof. apply groupInfo_RT. Qed.
#[export] Hint Resolve groupInfo_rt : rt.
Lemma groupInfo_CAN : CAN getGroupInfo putGroupInfo wf_groupInfo good_groupInfo.
Proof.
  intros s x rest H. unfold getGroupInfo in H. split_binds H. inversion H; subst.
  can_with groupContext_CANT. can_with extensionVec_CANT.
  unfold wf_groupInfo, good_groupInfo, putGroupInfo, putGroupInfoTBS.
  cbn [gi_groupContext gi_extensions gi_confirmationTag gi_signer gi_signature].
  unfold getGroupInfoTail in R1.
  repeat match type of R1 with
  | (match ?r ?s with _ => _ end) = _ => let E := fresh "E" in destruct (r s) as [[?|?|?|] ?] eqn:E
  end; inversion R1; subst; clear R1; cbn [fst snd]; can_prims.
  - split; [auto|]. intros _. can_finish.
  - split; [auto|]. congruence.
  - split; [splits; auto; reflexivity|]. congruence.
  - split; [splits; auto; reflexivity|]. congruence.
Qed.
Lemma groupInfoTail_SAFE0 : SAFE0 getGroupInfoTail.
Proof.
  intros s. unfold getGroupInfoTail.
  pose proof (readOpaqueVec_SAFE s) as H. destruct (readOpaqueVec s) as [[a|a|a|] s1]; auto.
  pose proof (readUint32_SAFE s1) as H1. destruct (readUint32 s1) as [[b|b|b|] s2]; auto; try lia.
  pose proof (readOpaqueVec_SAFE s2) as H2. destruct (readOpaqueVec s2) as [[c|c|c|] s3]; auto; lia.
Qed.
#[export] Hint Resolve groupInfoTail_SAFE0 : safe.
Lemma groupInfo_SAFE : SAFE getGroupInfo.
Proof. unfold getGroupInfo. safe. Qed.
#[export] Hint Resolve groupInfo_SAFE : safe.

Lemma groupSecrets_RT : RT getGroupSecrets putGroupSecrets wf_groupSecrets.
Proof.
  intros [j [p|] l] e rest Hw He; unfold putGroupSecrets, wf_groupSecrets in *; cbn [gs_joinerSecret gs_pathSecret gs_psks] in *;
    unwapp; unfold getGroupSecrets; rewrite <- ?app_assoc; do 2 rt_step; cbv iota.
  - erewrite rd_bind_eq; [|rt_run]. rt_run.
  - erewrite rd_bind_eq; [|reflexivity]. rt_run.
Qed.
Lemma groupSecrets_CANT : CANT getGroupSecrets putGroupSecrets wf_groupSecrets.
Proof.
  intros s x rest H. unfold getGroupSecrets in H. split_binds H. inversion H; subst. can_with pskIDVec_CANT. can_prims.
  unfold wf_groupSecrets, putGroupSecrets; cbn [gs_joinerSecret gs_pathSecret gs_psks].
  destruct a0; split_binds R1; inversion R1; subst; can_prims; (split; [assumption|]); can_finish.
Qed.
Lemma groupSecrets_SAFE : SAFE getGroupSecrets.
Proof. unfold getGroupSecrets. safe. Qed.
#[export] Hint Resolve groupSecrets_SAFE : safe.

Lemma egs_RT : RT getEncryptedGroupSecrets putEncryptedGroupSecrets (fun _ => True).
Proof.
  intros [m h] e rest _ He. unfold putEncryptedGroupSecrets in He; cbn [egs_newMember egs_secrets] in He. unwapp.
  unfold getEncryptedGroupSecrets. rt_run.
Qed.
Lemma egs_CANT : CANT getEncryptedGroupSecrets putEncryptedGroupSecrets (fun _ => True).
Proof.
  intros s x rest H. unfold getEncryptedGroupSecrets in H. split_binds H. can_with hpkeCiphertext_CANT. can_prims.
  inversion H; subst. split; [exact I|]. unfold putEncryptedGroupSecrets; cbn [egs_newMember egs_secrets]. can_finish.
Qed.
Lemma egs_SAFE : SAFE getEncryptedGroupSecrets.
Proof. unfold getEncryptedGroupSecrets. safe. Qed.
#[export] Hint Resolve egs_SAFE : safe.
Lemma egsVec_rt l e rest : writeVector putEncryptedGroupSecrets l = Ok e ->
  readVector getEncryptedGroupSecrets (e ++ rest) = (Ok l, rest).
Proof. intros H. eapply readVector_RT; [exact egs_RT|auto with safe|auto|exact H]. Qed.
#[export] Hint Resolve egsVec_rt : rt.
Lemma egsVec_CANT : CANT (readVector getEncryptedGroupSecrets) (writeVector putEncryptedGroupSecrets) (Forall (fun _ => True)).
Proof. apply readVector_CANT, egs_CANT. Qed.

Lemma welcome_RT : RT getWelcome putWelcome wf_welcome.
Proof.
  intros [cs l g] e rest Hw He. unfold putWelcome, wf_welcome in *; cbn [w_cipherSuite w_secrets w_encryptedGroupInfo] in *. unwapp.
  unfold getWelcome. rt_run.
Qed.
Lemma welcome_rt c e rest : wf_welcome c -> putWelcome c = Ok e -> getWelcome (e ++ rest) = (Ok c, rest).
Proof. apply welcome_RT. Qed.
#[export] Hint Resolve welcome_rt : rt.
Lemma welcome_CANT : CANT getWelcome putWelcome wf_welcome.
Proof.
  intros s x rest H. unfold getWelcome in H. split_binds H. can_with egsVec_CANT. can_prims.
  inversion H; subst. split; [assumption|]. unfold putWelcome; cbn [w_cipherSuite w_secrets w_encryptedGroupInfo]. can_finish.
Qed.
Lemma welcome_SAFE : SAFE getWelcome.
Proof. unfold getWelcome. safe. Qed.
#[export] Hint Resolve welcome_SAFE : safe.

(** ** framing.go *)
Lemma sender_RT : RT getSender putSender wf_sender.
Proof.
  intros [i|i| |] e rest Hw He; cbn [putSender wf_sender] in *; unwapp; unfold getSender; rewrite <- ?app_assoc; tag_step; rt_run.
Qed.
Lemma sender_rt c e rest : wf_sender c -> putSender c = Ok e -> getSender (e ++ rest) = (Ok c, rest).
Proof. apply sender_RT. Qed.
#[export] Hint Resolve sender_rt : rt.
Lemma sender_CANT : CANT getSender putSender wf_sender.
Proof.
  intros s x rest H. unfold getSender in H. apply rd_bind_ok in H. destruct H as (t & s' & Ht & H).
  apply tag1_can in Ht. destruct Ht as (Hin & e & He & ->).
  destruct Hin as [<-|[<-|[<-|[<-|[]]]]]; tagb; split_binds H; inversion H; subst; can_prims;
    (split; [solve [auto | exact I]|]); cbn [putSender]; can_finish.
Qed.
Lemma sender_SAFE : SAFE getSender.
Proof. unfold getSender. safe_tag. Qed.
#[export] Hint Resolve sender_SAFE : safe.

Lemma body_rt b e rest : wf_body b -> putBody b = Ok e -> getBody (body_type b) (e ++ rest) = (Ok b, rest).
Proof.
  intros Hw He. destruct b; cbn [wf_body putBody body_type] in *; unfold getBody; tagb; rt_run.
Qed.
#[export] Hint Resolve body_rt : rt.
Lemma body_CAN ct s x rest : In ct [1; 2; 3] -> getBody ct s = (Ok x, rest) ->
  body_type x = ct /\ wf_body x /\ (good_body x -> exists e, putBody x = Ok e /\ s = e ++ rest).
Proof.
  intros Hin H. unfold getBody in H.
  destruct Hin as [<-|[<-|[<-|[]]]]; tagb; split_binds H; inversion H; subst; cbn [body_type wf_body good_body putBody].
  - can_prims. split; [reflexivity|]. split; [exact I|]. intros _. can_finish.
  - apply proposal_CAN in R. tauto.
  - apply commit_CAN in R. tauto.
Qed.
Lemma body_SAFE ct : In ct [1; 2; 3] -> SAFE (getBody ct).
Proof. intros [<-|[<-|[<-|[]]]]; unfold getBody; tagb; safe. Qed.

Lemma body_type_in b : In (body_type b) [1; 2; 3].
Proof. destruct b; cbn; auto. Qed.
Lemma body_type_u8 b : u8 (body_type b).
Proof. destruct b; reflexivity. Qed.
#[export] Hint Resolve body_type_in body_type_u8 : rt.
Lemma contentType_rt t e rest : In t [1; 2; 3] -> u8 t -> addUint8 t = Ok e -> getContentType (e ++ rest) = (Ok t, rest).
Proof. apply tag1_rt. Qed.
#[export] Hint Resolve contentType_rt : rt.


Lemma framedContent_RT : RT getFramedContent putFramedContent wf_framedContent.
Proof.
  intros [g ep s ad b] e rest Hw He. unfold putFramedContent, wf_framedContent in *.
  cbn [fc_groupID fc_epoch fc_sender fc_authenticatedData fc_body] in *. conj. unwapp. unfold getFramedContent. rt_run.
Qed.
Lemma framedContent_rt c e rest : wf_framedContent c -> putFramedContent c = Ok e -> getFramedContent (e ++ rest) = (Ok c, rest).
Proof. apply framedContent_RT. Qed.
#[export] Hint Resolve framedContent_rt : rt.
Lemma framedContent_CAN : CAN getFramedContent putFramedContent wf_framedContent good_framedContent.
Proof.
  intros s x rest H. unfold getFramedContent in H. split_binds H. inversion H; subst.
  apply tag1_can in R3. destruct R3 as (Hin & e & He & ->).
  apply body_CAN in R4; [|assumption]. destruct R4 as (Ht & Hw & R4). can_with sender_CANT. can_prims.
  unfold wf_framedContent, good_framedContent, putFramedContent; cbn [fc_groupID fc_epoch fc_sender fc_authenticatedData fc_body].
  split; [auto|]. intros Hg. destruct (R4 Hg) as (e' & He' & ->). subst a3. can_finish.
Qed.
Lemma framedContent_SAFE : SAFE getFramedContent.
Proof.
  unfold getFramedContent. do 4 (apply SAFE_bind; [solve [auto with safe]|intros ?] || (apply SAFE0_bind; [safe|intros ?])).
  apply SAFE_SAFE0, SAFE_tag; [lia|]. intros t Ht. apply SAFE0_bind; [|safe]. now apply SAFE_SAFE0, body_SAFE.
Qed.
#[export] Hint Resolve framedContent_SAFE : safe.

Lemma authData_rt ct a e rest : wf_authData ct a -> putAuthData ct a = Ok e -> getAuthData ct (e ++ rest) = (Ok a, rest).
Proof.
  destruct a as [sig tag]. unfold wf_authData, putAuthData; cbn [ad_signature ad_confirmationTag]. intros Hw He. unwapp.
  unfold getAuthData. rewrite <- app_assoc. rt_step. destruct (N.eqb_spec ct 3).
  - rt_run.
  - destruct Hw as [|Hw]; [congruence|]. subst tag. match goal with H : Ok [] = Ok ?x |- _ => inversion H; subst end.
    reflexivity.
Qed.
#[export] Hint Resolve authData_rt : rt.
Lemma authData_CANT ct : CANT (getAuthData ct) (putAuthData ct) (wf_authData ct).
Proof.
  intros s x rest H. unfold getAuthData in H. split_binds H. inversion H; subst. can_prims.
  unfold wf_authData, putAuthData; cbn [ad_signature ad_confirmationTag]. destruct (N.eqb_spec ct 3).
  - can_prims. split; auto. can_finish.
  - inversion R0; subst. split; auto. can_finish.
Qed.
Lemma authData_SAFE ct : SAFE (getAuthData ct).
Proof. unfold getAuthData. safe. Qed.
#[export] Hint Resolve authData_SAFE : safe.

Lemma authenticatedContent_RT : RT getAuthenticatedContent putAuthenticatedContent wf_authenticatedContent.
Proof.
  intros [w c a] e rest (Hin & Hc & Ha) He. unfold putAuthenticatedContent in *.
  cbn [ac_wireFormat ac_content ac_auth] in *. unwapp. unfold getAuthenticatedContent. rewrite <- ?app_assoc.
  erewrite rd_bind_eq; [|eapply tag2_rt; cycle 2; [eassumption|exact Hin|]].
  - rt_run.
  - cbn in Hin. unfold u16. lia.
Qed.
Lemma authenticatedContent_CAN :
  CAN getAuthenticatedContent putAuthenticatedContent wf_authenticatedContent good_authenticatedContent.
Proof.
  intros s x rest H. unfold getAuthenticatedContent in H. split_binds H. inversion H; subst.
  apply tag2_can in R. destruct R as (Hin & e & He & ->).
  apply framedContent_CAN in R0. destruct R0 as (Hw & R0). can_with authData_CANT.
  unfold wf_authenticatedContent, good_authenticatedContent, putAuthenticatedContent; cbn [ac_wireFormat ac_content ac_auth].
  split; [auto|]. intros Hg. destruct (R0 Hg) as (e' & He' & ->). can_finish.
Qed.
Lemma authenticatedContent_SAFE : SAFE getAuthenticatedContent.
Proof. unfold getAuthenticatedContent. safe. Qed.
#[export] Hint Resolve authenticatedContent_SAFE : safe.

Lemma publicMessage_RT : RT getPublicMessage putPublicMessage wf_publicMessage.
Proof.
  intros [c a t] e rest (Hc & Ha & Ht) He. unfold putPublicMessage in *.
  cbn [pubm_content pubm_auth pubm_membershipTag] in *. unwapp. unfold getPublicMessage. rewrite <- ?app_assoc. do 2 rt_step.
  destruct (fc_sender c); [rt_run|subst t..]; match goal with H : Ok [] = Ok ?x |- _ => inversion H; subst end; reflexivity.
Qed.
Lemma publicMessage_rt c e rest : wf_publicMessage c -> putPublicMessage c = Ok e -> getPublicMessage (e ++ rest) = (Ok c, rest).
Proof. apply publicMessage_RT. Qed.
#[export] Hint Resolve publicMessage_rt : rt.
Lemma publicMessage_CAN : CAN getPublicMessage putPublicMessage wf_publicMessage good_publicMessage.
Proof.
  intros s x rest H. unfold getPublicMessage in H. split_binds H. inversion H; subst.
  apply framedContent_CAN in R. destruct R as (Hw & R). can_with authData_CANT.
  unfold wf_publicMessage, good_publicMessage, putPublicMessage; cbn [pubm_content pubm_auth pubm_membershipTag].
  destruct (fc_sender a) eqn:Es.
  - can_prims. split; [auto|]. intros Hg. destruct (R Hg) as (e' & He' & ->). can_finish.
  - inversion R1; subst. split; [auto|]. intros Hg. destruct (R Hg) as (e' & He' & ->). can_finish.
  - inversion R1; subst. split; [auto|]. intros Hg. destruct (R Hg) as (e' & He' & ->). can_finish.
  - inversion R1; subst. split; [auto|]. intros Hg. destruct (R Hg) as (e' & He' & ->). can_finish.
Qed.
Lemma publicMessage_SAFE : SAFE getPublicMessage.
Proof. unfold getPublicMessage. safe. Qed.
#[export] Hint Resolve publicMessage_SAFE : safe.

Lemma contentType_u8 t : In t [1; 2; 3] -> u8 t.
Proof. cbn. unfold u8. lia. Qed.
#[export] Hint Resolve contentType_u8 : rt.
Lemma contentType_SAFE : SAFE getContentType.
Proof. apply getTag1_SAFE. Qed.
#[export] Hint Resolve contentType_SAFE : safe.

Lemma privateMessage_RT : RT getPrivateMessage putPrivateMessage wf_privateMessage.
Proof.
  intros [g ep ct ad sd c] e rest (Hep & Hct) He. unfold putPrivateMessage in *.
  cbn [privm_groupID privm_epoch privm_contentType privm_authenticatedData privm_encryptedSenderData privm_ciphertext] in *. unwapp.
  unfold getPrivateMessage. rt_run.
Qed.
Lemma privateMessage_rt c e rest : wf_privateMessage c -> putPrivateMessage c = Ok e -> getPrivateMessage (e ++ rest) = (Ok c, rest).
Proof. apply privateMessage_RT. Qed.
#[export] Hint Resolve privateMessage_rt : rt.
Lemma privateMessage_CANT : CANT getPrivateMessage putPrivateMessage wf_privateMessage.
Proof.
  intros s x rest H. unfold getPrivateMessage in H. split_binds H. inversion H; subst.
  apply tag1_can in R1. destruct R1 as (Hin & e & He & ->). can_prims.
  split; [split; auto|]. unfold putPrivateMessage.
  cbn [privm_groupID privm_epoch privm_contentType privm_authenticatedData privm_encryptedSenderData privm_ciphertext]. can_finish.
Qed.
Lemma privateMessage_SAFE : SAFE getPrivateMessage.
Proof. unfold getPrivateMessage. safe. Qed.
#[export] Hint Resolve privateMessage_SAFE : safe.

Lemma privateMessageContent_rt c e rest : wf_privateMessageContent c -> putPrivateMessageContent c = Ok e ->
  getPrivateMessageContent (body_type (pmc_body c)) (e ++ rest) = (Ok c, rest).
Proof.
  destruct c as [b a]. intros (Hb & Ha) He. unfold putPrivateMessageContent in *; cbn [pmc_body pmc_auth] in *. unwapp.
  unfold getPrivateMessageContent. rt_run.
Qed.
Lemma privateMessageContent_CAN ct s x rest : In ct [1; 2; 3] -> getPrivateMessageContent ct s = (Ok x, rest) ->
  body_type (pmc_body x) = ct /\ wf_privateMessageContent x /\
  (good_privateMessageContent x -> exists e, putPrivateMessageContent x = Ok e /\ s = e ++ rest).
Proof.
  intros Hin H. unfold getPrivateMessageContent in H. split_binds H. inversion H; subst.
  apply body_CAN in R; [|assumption]. destruct R as (Ht & Hw & R). can_with authData_CANT. cbn [pmc_body].
  unfold wf_privateMessageContent, good_privateMessageContent, putPrivateMessageContent; cbn [pmc_body pmc_auth]. subst ct.
  split; [reflexivity|]. split; [auto|]. intros Hg. destruct (R Hg) as (e' & He' & ->). can_finish.
Qed.
Lemma privateMessageContent_SAFE ct : In ct [1; 2; 3] -> SAFE (getPrivateMessageContent ct).
Proof. intros H. unfold getPrivateMessageContent. apply SAFE_bind; [now apply body_SAFE|]. intros. safe. Qed.

Lemma senderData_RT : RT getSenderData putSenderData wf_senderData.
Proof.
  intros [li g r] e rest (Hl & Hg & Hr) He. unfold putSenderData in *.
  cbn [sd_leafIndex sd_generation sd_reuseGuard] in *. unwapp. unfold getSenderData.
  rewrite <- ?app_assoc. do 2 rt_step. match goal with H : addBytes _ = Ok ?y |- _ => unfold addBytes in H; assert (y = r) by congruence; subst y end.
  unfold rd_bind. rewrite <- Hr. rewrite readN_app. reflexivity.
Qed.
Lemma senderData_CANT : CANT getSenderData putSenderData wf_senderData.
Proof.
  intros s x rest H. unfold getSenderData in H. split_binds H. inversion H; subst. can_prims.
  apply readN_inv in R1. destruct R1 as [-> R1].
  split; [splits; auto|].
  unfold putSenderData, addBytes; cbn [sd_leafIndex sd_generation sd_reuseGuard]. can_finish.
Qed.
Lemma senderData_SAFE : SAFE getSenderData.
Proof.
  unfold getSenderData. do 2 (apply SAFE_bind; [solve [auto with safe]|intros ?] || (apply SAFE0_bind; [safe|intros ?])).
  apply SAFE0_bind; [|safe]. intros s. pose proof (readN_cases 4 s) as Hc.
  destruct (readN 4 s) as [[]]; auto; destruct Hc as [-> _]; [rewrite app_length|]; lia.
Qed.
#[export] Hint Resolve senderData_SAFE : safe.

Lemma mlsMessage_RT : RT getMlsMessage putMlsMessage wf_mlsMessage.
Proof.
  intros m e rest Hw He. unfold putMlsMessage in He. assert (u16 1) by reflexivity.
  destruct m; cbn [msg_wireFormat wf_mlsMessage] in *; unwapp; unfold getMlsMessage; rewrite <- ?app_assoc;
    rt_step; tagb; tag_step; rt_run.
Qed.
Lemma mlsMessage_CAN : CAN getMlsMessage putMlsMessage wf_mlsMessage good_mlsMessage.
Proof.
  intros s x rest H. unfold getMlsMessage in H. apply rd_bind_ok in H. destruct H as (v & s0 & Hv & H). can_prims.
  destruct (N.eqb_spec v 1) as [->|]; [|discriminate]. cbn [negb] in H.
  apply rd_bind_ok in H. destruct H as (t & s' & Ht & H).
  apply tag2_can in Ht. destruct Ht as (Hin & e & He & ->).
  destruct Hin as [<-|[<-|[<-|[<-|[<-|[]]]]]]; tagb; split_binds H; inversion H; subst;
    unfold putMlsMessage; cbn [wf_mlsMessage good_mlsMessage msg_wireFormat].
  - apply publicMessage_CAN in R. destruct R as (Hw & R). split; auto. intros Hg. destruct (R Hg) as (e' & He' & ->). can_finish.
  - can_with privateMessage_CANT. split; auto. intros _. can_finish.
  - can_with welcome_CANT. split; auto. intros _. can_finish.
  - apply groupInfo_CAN in R. destruct R as (Hw & R). split; auto. intros Hg. destruct (R Hg) as (e' & He' & ->). can_finish.
  - apply keyPackage_CAN in R. destruct R as (Hw & R). split; auto. intros Hg. destruct (R Hg) as (e' & He' & ->). can_finish.
Qed.
Lemma mlsMessage_SAFE : SAFE getMlsMessage.
Proof.
  unfold getMlsMessage. apply SAFE_bind; [auto with safe|]. intros v. destruct (negb (v =? 1)); [auto with safe|].
  apply SAFE_SAFE0. safe_tag.
Qed.
#[export] Hint Resolve mlsMessage_SAFE : safe.
