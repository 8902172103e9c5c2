(** The key schedule (key_schedule.go:56-170, 281-330) and the secret tree
    (secret_tree.go). *)
From Verif Require Export Tree.

(** key_schedule.go:121-131 *)
Definition secretLabelInit : bytes := str "init".
Definition secretLabelSenderData : bytes := str "sender data".
Definition secretLabelEncryption : bytes := str "encryption".
Definition secretLabelExporter : bytes := str "exporter".
Definition secretLabelExternal : bytes := str "external".
Definition secretLabelConfirm : bytes := str "confirm".
Definition secretLabelMembership : bytes := str "membership".
Definition secretLabelResumption : bytes := str "resumption".
Definition secretLabelAuthentication : bytes := str "authentication".

(** [make([]byte, n)] *)
Definition zeros (n : N) : bytes := repeat (n2b 0) (N.to_nat n).

Section WithCrypto.
Context {C : crypto}.

(** key_schedule.go:56-67 extractJoinerSecret *)
Definition extractJoinerSecret (ctx : groupContext) (prevInitSecret commitSecret : bytes) : res bytes :=
  let cs := gc_cipherSuite ctx in
  let! extracted := extract cs commitSecret prevInitSecret in
  let! raw := putGroupContext ctx in
  let! nh := extractSize cs in
  expandWithLabel cs extracted (str "joiner") raw nh.

(** key_schedule.go:69-84 extractEpochSecret.  No caller passes a nil
    pskSecret. *)
Definition extractEpochSecret (ctx : groupContext) (joinerSecret pskSecret : bytes) : res bytes :=
  let cs := gc_cipherSuite ctx in
  let! extracted := extract cs pskSecret joinerSecret in
  let! raw := putGroupContext ctx in
  let! nh := extractSize cs in
  expandWithLabel cs extracted (str "epoch") raw nh.

(** key_schedule.go:86-96 signConfirmationTag *)
Definition signConfirmationTag (ctx : groupContext) (epochSecret : bytes) : res bytes :=
  let cs := gc_cipherSuite ctx in
  let! confirmationKey := deriveSecret cs epochSecret secretLabelConfirm in
  signMAC cs confirmationKey (gc_confirmedTranscriptHash ctx).

(** key_schedule.go:98-107 extractWelcomeSecret *)
Definition extractWelcomeSecret (cs : N) (joinerSecret pskSecret : bytes) : res bytes :=
  let! extracted := extract cs pskSecret joinerSecret in
  deriveSecret cs extracted (str "welcome").

(** key_schedule.go:109-119 deriveExporter *)
Definition deriveExporter (cs : N) (exporterSecret label context : bytes) (length : N) : res bytes :=
  let! derived := deriveSecret cs exporterSecret label in
  let! h := hashSum cs context in
  expandWithLabel cs derived (str "exported") h length.

(** key_schedule.go:149-159 confirmedTranscriptHashInput.hash *)
Definition confirmedTranscriptHash (cs : N) (wf : N) (c : framedContent) (sig interimBefore : bytes) : res bytes :=
  let! raw := putConfirmedTranscriptHashInput wf c sig in
  hashSum cs (interimBefore ++ raw).

(** key_schedule.go:161-173 nextInterimTranscriptHash *)
Definition nextInterimTranscriptHash (cs : N) (confirmedHash confirmationTag : bytes) : res bytes :=
  let! raw := writeOpaqueVec confirmationTag in
  hashSum cs (confirmedHash ++ raw).

(** key_schedule.go:290-313, the loop of extractPSKSecret *)
Fixpoint pskLoop (cs : N) (nh count : N) (i : N) (pskSecret : bytes) (l : list (preSharedKeyID * bytes)) : res bytes :=
  match l with
  | [] => Ok pskSecret
  | (id, psk) :: r =>
    let! pskExtracted := extract cs psk (zeros nh) in
    let! raw := putPskLabel id (i mod 65536) (count mod 65536) in
    let! pskInput := expandWithLabel cs pskExtracted (str "derived psk") raw nh in
    let! pskSecret' := extract cs pskSecret pskInput in
    pskLoop cs nh count (i + 1) pskSecret' r
  end.

(** key_schedule.go:281-316 extractPSKSecret *)
Definition extractPSKSecret (cs : N) (pskIDs : list preSharedKeyID) (psks : list bytes) : res bytes :=
  let! _ := guard (lenN pskIDs =? lenN psks) "mls: number of PSK IDs and PSKs differ" in
  let! nh := extractSize cs in
  pskLoop cs nh (lenN pskIDs) 0 (zeros nh) (combine pskIDs psks).

(** ** The secret tree *)

(** secret_tree.go:14-23 ratchetLabelFromContentType; the three content types
    are the only ones. *)
Definition ratchetLabelFromContentType (ct : N) : res bytes :=
  match ct with
  | 1 => Ok (str "application")
  | 2 | 3 => Ok (str "handshake")
  | _ => Panic "unreachable"
  end.

(** secret_tree.go:27 secretTree; nil entries are [None]. *)
Definition secretTree := list (option bytes).

(** secret_tree.go:67-73 get *)
Definition getSecret (t : secretTree) (x : N) : res bytes :=
  let! o := getN t x in
  match o with None => Panic "empty node in secret tree" | Some s => Ok s end.

(** secret_tree.go:36-65 deriveChildren *)
Fixpoint deriveChildren (fuel : nat) (cs : N) (t : secretTree) (x : N) : res secretTree :=
  match children x with
  | None => Ok t
  | Some (l, r) =>
    match fuel with
    | O => Hang
    | S f =>
      let! parentSecret := getSecret t x in
      let! nh := extractSize cs in
      let! leftSecret := expandWithLabel cs parentSecret (str "tree") (str "left") nh in
      let! rightSecret := expandWithLabel cs parentSecret (str "tree") (str "right") nh in
      let! t1 := setN t l (Some leftSecret) in
      let! t2 := setN t1 r (Some rightSecret) in
      let! t3 := deriveChildren f cs t2 l in
      deriveChildren f cs t3 r
    end
  end.

(** secret_tree.go:29-34 deriveSecretTree *)
Definition deriveSecretTree (cs : N) (n : N) (encryptionSecret : bytes) : res secretTree :=
  let! t := setN (repeat None (N.to_nat (width n))) (root n) (Some encryptionSecret) in
  deriveChildren 32 cs t (root n).

(** secret_tree.go:87-90 ratchetSecret *)
Record ratchetSecret := mkRatchetSecret {
  rs_secret : bytes;
  rs_generation : N }.

(** secret_tree.go:79-85 deriveRatchetRoot *)
Definition deriveRatchetRoot (cs : N) (t : secretTree) (ni : N) (label : bytes) : res ratchetSecret :=
  let! nh := extractSize cs in
  let! s := getSecret t ni in
  let! rt := expandWithLabel cs s label [] nh in
  Ok (mkRatchetSecret rt 0).

(** secret_tree.go:111-117 deriveTreeSecret *)
Definition deriveTreeSecret (cs : N) (secret label : bytes) (generation length : N) : res bytes :=
  let! context := addUint32 generation in
  expandWithLabel cs secret label context length.

(** secret_tree.go:92-96 deriveNonce, 98-102 deriveKey, 104-109 deriveNext *)
Definition deriveNonce (cs : N) (s : ratchetSecret) : res bytes :=
  let! nn := suiteNonceSize cs in
  deriveTreeSecret cs (rs_secret s) (str "nonce") (rs_generation s) nn.
Definition deriveKey (cs : N) (s : ratchetSecret) : res bytes :=
  let! nk := suiteKeySize cs in
  deriveTreeSecret cs (rs_secret s) (str "key") (rs_generation s) nk.
Definition deriveNext (cs : N) (s : ratchetSecret) : res ratchetSecret :=
  let! nh := extractSize cs in
  let! next := deriveTreeSecret cs (rs_secret s) (str "secret") (rs_generation s) nh in
  Ok (mkRatchetSecret next ((rs_generation s + 1) mod 2 ^ 32)).

End WithCrypto.
