(** Specification notions for the codec properties C01-C08. *)
From Verif Require Import Codec WellFormed Crypto SignFacts.

(** ** C01: variable-length integers.
    A string of 1, 2 or 4 bytes denotes a number: its two top bits are the
    base-2 logarithm of its length, the other bits the number, big-endian. *)
Definition denotes (bs : bytes) (n : N) : Prop :=
  exists p, p < 3 /\ lenN bs = 2 ^ p /\ n < 2 ^ (8 * 2 ^ p - 2) /\
            unbe bs = p * 2 ^ (8 * 2 ^ p - 2) + n.

Definition shortest (bs : bytes) (n : N) : Prop :=
  denotes bs n /\ forall bs', denotes bs' n -> lenN bs <= lenN bs'.

(** ** C02: decoding an encoding returns the value and leaves what follows. *)
Definition decodes_back {A} (dec : reader A) (enc : A -> W) (wf : A -> Prop) : Prop :=
  forall x e rest, wf x -> enc x = Ok e -> dec (e ++ rest) = (Ok x, rest).

(** ** C05: a decoder returns a value or an error, and what it leaves is what
    remains of its input after the part it has read. *)
Definition total_decoder {A} (dec : reader A) : Prop :=
  forall s, no_crash (fst (dec s)) /\ exists consumed, s = consumed ++ snd (dec s).

(** ** C07: the four kinds of signed objects with the data their signature
    must bind. *)
Inductive signedObject :=
| SignLeafNode (l : leafNode) (groupID : bytes) (leafIndex : N)
| SignKeyPackage (k : keyPackage)
| SignGroupInfo (g : groupInfo)
| SignFramedContent (wireFormat : N) (c : framedContent) (ctx : groupContext).

Definition wf_signedObject (o : signedObject) : Prop :=
  match o with
  | SignLeafNode l _ i => wf_leafNode l /\ u32 i
  | SignKeyPackage k => wf_keyPackage k
  | SignGroupInfo g => wf_groupInfo g
  | SignFramedContent w c x => u16 w /\ wf_framedContent c /\ wf_groupContext x
  end.

(** The bytes handed to the signature primitive (tree.go:377, 398;
    key_package.go:102, 119; group.go:933, 942; framing.go:384, 392). *)
Definition signedBytes (o : signedObject) : W :=
  match o with
  | SignLeafNode l g i => let! tbs := putLeafNodeTBS l g i in putLabelled (str "LeafNodeTBS") tbs
  | SignKeyPackage k => let! tbs := putKeyPackageTBS k in putLabelled (str "KeyPackageTBS") tbs
  | SignGroupInfo g => let! tbs := putGroupInfoTBS g in putLabelled (str "GroupInfoTBS") tbs
  | SignFramedContent w c x => let! tbs := putFramedContentTBS w c x in putLabelled (str "FramedContentTBS") tbs
  end.

(** Equality of everything but the signature; a leaf node from a key package
    is not bound to a group, and an external sender does not sign the group
    context. *)
Definition same_signed (o1 o2 : signedObject) : Prop :=
  match o1, o2 with
  | SignLeafNode l1 g1 i1, SignLeafNode l2 g2 i2 =>
    ln_encryptionKey l1 = ln_encryptionKey l2 /\ ln_signatureKey l1 = ln_signatureKey l2 /\
    ln_credential l1 = ln_credential l2 /\ ln_capabilities l1 = ln_capabilities l2 /\
    ln_source l1 = ln_source l2 /\ ln_lifetime l1 = ln_lifetime l2 /\
    ln_parentHash l1 = ln_parentHash l2 /\ ln_extensions l1 = ln_extensions l2 /\
    (ln_source l1 <> 1 -> g1 = g2 /\ i1 = i2)
  | SignKeyPackage k1, SignKeyPackage k2 =>
    kp_version k1 = kp_version k2 /\ kp_cipherSuite k1 = kp_cipherSuite k2 /\ kp_initKey k1 = kp_initKey k2 /\
    kp_leafNode k1 = kp_leafNode k2 /\ kp_extensions k1 = kp_extensions k2
  | SignGroupInfo g1, SignGroupInfo g2 =>
    gi_groupContext g1 = gi_groupContext g2 /\ gi_extensions g1 = gi_extensions g2 /\
    gi_confirmationTag g1 = gi_confirmationTag g2 /\ gi_signer g1 = gi_signer g2
  | SignFramedContent w1 c1 x1, SignFramedContent w2 c2 x2 =>
    w1 = w2 /\ c1 = c2 /\
    (match fc_sender c1 with SMember _ | SNewMemberCommit => x1 = x2 | _ => True end)
  | _, _ => False
  end.
