(** The steps of the message ratchet that a receiver does (group.go:326-369). *)
From Verif Require Export Group.

Section WithCrypto.
Context {C : crypto}.

(** group.go:364-369: how often deriveNext is called until the generation is
    reached or a call fails *)
Fixpoint stepsDone (cs : N) (s : ratchetSecret) (steps : nat) : N :=
  match steps with
  | O => 0
  | S k => match deriveNext cs s with Ok s' => 1 + stepsDone cs s' k | _ => 1 end
  end.

(** group.go:339-369 *)
Definition ratchetWork (g : group) (li ct generation : N) : N :=
  let cs := gc_cipherSuite (gr_context g) in
  match
    (let! encryptionSecret := deriveSecret cs (gr_epochSecret g) secretLabelEncryption in
     let! st := deriveSecretTree cs (numLeaves (gr_tree g)) encryptionSecret in
     let! label := ratchetLabelFromContentType ct in
     deriveRatchetRoot cs st (nodeIndexOf li) label)
  with
  | Ok secret => stepsDone cs secret (N.to_nat generation)
  | _ => 0
  end.

(** group.go:326-369 processPrivateMessage *)
Definition privateWork (g : group) (m : privateMessage) : N :=
  let ctx := gr_context g in
  let cs := gc_cipherSuite ctx in
  match
    (let! _ := guard (bytes_eqb (privm_groupID m) (gc_groupID ctx)) "mls: message group ID mismatch" in
     let! _ := guard (privm_epoch m =? gc_epoch ctx) "mls: epoch mismatch" in
     let! senderDataSecret := deriveSecret cs (gr_epochSecret g) secretLabelSenderData in
     decryptSenderData cs m senderDataSecret)
  with
  | Ok sd => ratchetWork g (sd_leafIndex sd) (privm_contentType m) (sd_generation sd)
  | _ => 0
  end.

(** group.go:256-271 UnmarshalAndProcessMessage *)
Definition messageWork (g : group) (raw : bytes) : N :=
  match unmarshal getMlsMessage raw with
  | Ok (MPrivate m) => privateWork g m
  | _ => 0
  end.
End WithCrypto.
