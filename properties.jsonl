{"id": "C01", "title": "Varint length prefixes are canonical", "statement": "A length prefix is accepted by the decoder exactly when it is the (shortest) encoding that the encoder produces for that length; every length below 2^30 encodes and decodes back to itself, every larger length is refused by the encoder, and no other byte string is accepted as a length.", "quantifier": "all lengths and all byte strings", "why_tests_cant": "2^30 lengths times arbitrary continuations cannot be enumerated", "anchors": ["mls.go:readVarint", "mls.go:writeVarint"]}
{"id": "C02", "title": "Decoding undoes encoding for every wire structure", "statement": "For every key package, Welcome, group info, public/private message, proposal, commit, ratchet-tree node, group context and group secrets value that can be encoded, decoding its encoding returns that very value and consumes exactly the encoded bytes; in particular UnmarshalKeyPackage(p.Bytes()) is p and UnmarshalWelcome(w.Bytes()) is w.", "quantifier": "all structure values with in-range integer fields, all trailing data", "why_tests_cant": "the value space is infinite (nested variable-length vectors)", "anchors": ["mls.go:marshal", "mls.go:unmarshal", "framing.go:mlsMessage", "key_package.go:KeyPackage.Bytes", "group.go:Welcome.Bytes", "tree.go:leafNode", "proposal.go:proposal"]}
{"id": "C03", "title": "Accepted Welcome messages and protected messages are in canonical form", "statement": "Whatever byte string the decoder accepts as a Welcome or as a private message re-encodes to exactly the same bytes; so there are no two distinct wire forms of the same Welcome, and no proper extension or truncation of an accepted Welcome is accepted.", "quantifier": "all byte strings", "why_tests_cant": "quantifies over every byte string", "anchors": ["group.go:UnmarshalWelcome", "group.go:Welcome.unmarshal", "framing.go:privateMessage.unmarshal", "mls.go:unmarshal"]}
{"id": "C04", "title": "Truncated or malformed key packages are rejected", "statement": "Every byte string accepted by UnmarshalKeyPackage is a complete key package encoding: re-encoding the result gives back the same bytes, and no proper prefix of an accepted key package is itself accepted.", "quantifier": "all byte strings", "why_tests_cant": "quantifies over every byte string and every truncation point", "anchors": ["key_package.go:KeyPackage.unmarshal", "key_package.go:UnmarshalKeyPackage"]}
{"id": "C05", "title": "Decoders are total", "statement": "For every byte string, UnmarshalKeyPackage, UnmarshalWelcome and the message, tree and secrets decoders terminate and return a value or an error: they never panic, never loop forever and never read past the input.", "quantifier": "all byte strings", "why_tests_cant": "hostile inputs are unbounded in number and length", "anchors": ["mls.go:readVector", "framing.go:mlsMessage.unmarshal", "tree.go:ratchetTree.unmarshal", "proposal.go:proposal.unmarshal"]}
{"id": "C06", "title": "Re-encoding a decoded key package or Welcome never panics", "statement": "If UnmarshalKeyPackage or UnmarshalWelcome succeeds then Bytes() on the result returns normally.", "quantifier": "all accepted byte strings", "why_tests_cant": "quantifies over every accepted input", "anchors": ["key_package.go:KeyPackage.Bytes", "group.go:Welcome.Bytes"]}
{"id": "C07", "title": "What is signed or MACed is unambiguous", "statement": "Two signing requests (label and content) that produce the same bytes to be signed have the same label and content; two framed contents, leaf nodes (with their group and position), key packages or group infos with the same to-be-signed bytes are equal in every signed field; signatures made for one structure kind can never be byte-identical inputs for another kind.", "quantifier": "all labels, contents and structures", "why_tests_cant": "injectivity quantifies over all pairs", "anchors": ["ciphersuite.go:marshalSignContent", "framing.go:framedContentTBS.marshal", "tree.go:leafNodeTBS.marshal", "key_package.go:KeyPackage.marshalTBS", "group.go:groupInfoTBS.marshal"]}
{"id": "C08", "title": "Ratchet tree encoding round-trips", "statement": "Encoding a ratchet tree whose last subtree is not entirely blank and decoding it gives back the same tree; every decoded tree is a full binary tree (its number of array slots plus one is a power of two) obtained from the transmitted node list by appending blanks only, fewer than would be needed to reach the next size; an accepted tree encoding not ending in a blank re-encodes to the same bytes.", "quantifier": "all trees, all byte strings", "why_tests_cant": "trees are unbounded", "anchors": ["tree.go:ratchetTree.unmarshal", "tree.go:ratchetTree.marshal"]}
{"id": "C09", "title": "Parent, child and sibling navigation is consistent", "statement": "In a full tree, for every non-root node the parent's two children are the node and its sibling, a node is left/right child exactly when it is the smaller/larger index, children of every intermediate node have it as parent, the root has no parent, and leaves have no children.", "quantifier": "all tree sizes and nodes", "why_tests_cant": "all sizes 2^k and all node indices", "anchors": ["tree_math.go:parent", "tree_math.go:sibling", "tree_math.go:left", "tree_math.go:right", "tree_math.go:root"]}
{"id": "C10", "title": "Direct path and copath", "statement": "For every node of a full tree, the direct path computation terminates and lists exactly the proper ancestors of the node from the nearest up to the root, and the copath lists exactly the siblings of the node and of its ancestors below the root, in the same order.", "quantifier": "all tree sizes and nodes", "why_tests_cant": "all sizes and nodes; termination", "anchors": ["tree_math.go:directPath", "tree_math.go:copath"]}
{"id": "C11", "title": "Common ancestor", "statement": "For any two nodes of a full tree the common ancestor computed is an ancestor-or-self of both and is below every other such node.", "quantifier": "all pairs of nodes", "why_tests_cant": "quadratically many pairs for unbounded sizes", "anchors": ["tree_math.go:commonAncestor"]}
{"id": "C12", "title": "Tree shape is preserved by every operation", "statement": "Starting from a well-shaped ratchet tree (full binary tree, leaf nodes only at leaf positions, parent nodes only at intermediate positions), adding, updating or removing a member, applying a list of valid proposals and merging an update path keep it well-shaped, or leave no tree when the last member is removed.", "quantifier": "all trees and operation sequences", "why_tests_cant": "unbounded histories", "anchors": ["tree.go:add", "tree.go:update", "tree.go:remove", "tree.go:apply", "tree.go:mergeUpdatePath"]}
{"id": "C13", "title": "Adding a member uses the leftmost free slot and disturbs nobody", "statement": "Adding a leaf puts it at the leftmost blank leaf, doubling the tree exactly when there is none; every other member keeps its leaf and every parent node keeps its key and hash, except that the new leaf index is appended to the unmerged list of each non-blank ancestor.", "quantifier": "all well-shaped trees", "why_tests_cant": "all trees", "anchors": ["tree.go:add"]}
{"id": "C14", "title": "Removing a member removes exactly that member", "statement": "Removing a leaf blanks that leaf and its whole direct path, leaves every other member's leaf at the same index with the same contents, changes no other node, and truncates the tree to the smallest full tree that still contains every remaining member.", "quantifier": "all well-shaped trees and leaves", "why_tests_cant": "all trees", "anchors": ["tree.go:remove"]}
{"id": "C15", "title": "Updating a member replaces exactly that member", "statement": "Applying an update puts the new leaf at the sender's position, blanks its direct path and changes nothing else.", "quantifier": "all well-shaped trees and leaves", "why_tests_cant": "all trees", "anchors": ["tree.go:update"]}
{"id": "C16", "title": "Effect of a proposal list on membership", "statement": "After applying a list of proposals, the members of the tree are exactly: the members neither removed nor updated, unchanged and at their index; the updated members with their new leaf; and the added leaves, each placed at the leftmost free slot in list order after all removals.", "quantifier": "all trees and all valid proposal lists", "why_tests_cant": "all lists and trees", "anchors": ["tree.go:apply"]}
{"id": "C17", "title": "Resolution reaches every member", "statement": "The resolution of a node in a tree satisfying the unmerged-leaf rule contains only non-blank nodes of its subtree, and every member in the subtree is either in the resolution or below a node of the resolution that does not list it as unmerged - exactly once; it is empty exactly when the subtree has no member and no non-blank parent.", "quantifier": "all trees and nodes", "why_tests_cant": "all trees", "anchors": ["tree.go:resolve"]}
{"id": "C18", "title": "Unmerged leaves stay well-formed through every commit", "statement": "If every non-blank parent lists as unmerged only members below it, in increasing order, this stays true after any sequence of adds, removes, updates and path merges.", "quantifier": "all trees and histories", "why_tests_cant": "unbounded histories", "anchors": ["tree.go:add", "tree.go:remove", "tree.go:update", "tree.go:mergeUpdatePath"]}
{"id": "C19", "title": "The tree hash commits to the whole tree", "statement": "Two encodable ratchet trees with the same root tree hash are identical in every node (or a hash collision has been found); so a joiner that checks the tree hash has the same tree as the group.", "quantifier": "all pairs of trees", "why_tests_cant": "quantifies over all pairs of trees", "anchors": ["tree.go:computeTreeHash", "tree.go:marshalLeafNodeHashInput", "tree.go:marshalParentNodeHashInput"]}
{"id": "C20", "title": "A merged update path is parent-hash linked", "statement": "When an update path is accepted, the committer's leaf and each new parent node carry the parent hash computed from the next new parent node above and the tree hash of the subtree on the other side, the node counts match the filtered direct path, the committer's ancestors outside the path are blank, and nodes off the direct path are unchanged; otherwise it is rejected.", "quantifier": "all trees and update paths", "why_tests_cant": "all trees and paths", "anchors": ["tree.go:mergeUpdatePath", "tree.go:filteredDirectPath"]}
{"id": "C21", "title": "What a verified tree guarantees", "statement": "If tree integrity verification succeeds, then the tree hash equals the one in the group context, every leaf has a valid signature for the group and its position, a supported credential, supported extensions and a current lifetime, all signature keys are distinct, all encryption keys (leaf and parent) are distinct, and every unmerged leaf is below the node listing it with all non-blank nodes in between listing it too; conversely a tree with these properties and valid parent hashes verifies.", "quantifier": "all trees, contexts and clocks", "why_tests_cant": "all trees", "anchors": ["tree.go:verifyIntegrity", "tree.go:leafNode.verify"]}
{"id": "C22", "title": "Credential support means every member supports it", "statement": "A credential type is considered supported exactly when every member of the tree lists it in its capabilities.", "quantifier": "all trees", "why_tests_cant": "all trees and capability lists", "anchors": ["tree.go:supportedCreds"]}
{"id": "C23", "title": "Leaf lifetime check", "statement": "For any current time later than 90 days after 1970, a key-package leaf passes the lifetime check exactly when its not-before is before now, its not-after is after now and the two are at most 90 days apart, for all 64-bit field values (no wrap-around acceptance).", "quantifier": "all 2^128 lifetimes and all times", "why_tests_cant": "all 64-bit pairs", "anchors": ["tree.go:lifetime.verify"]}
{"id": "C24", "title": "Proposal list verification decides the rule", "statement": "A commit's proposal list is accepted by list verification exactly when no two adds share a signature key, no leaf is the target of two updates/removes, no update is from the committer, no remove targets the committer, no two PSK proposals reference the same PSK id, there is at most one group-context-extensions proposal, a reinit stands alone and there is no external init.", "quantifier": "all proposal lists, senders and committers", "why_tests_cant": "all lists", "anchors": ["proposal.go:verifyProposalList"]}
{"id": "C25", "title": "Referenced proposals resolve to what was received", "statement": "Resolving a commit's proposals keeps their order, attributes proposals sent by value to the committer and referenced ones to the member that sent the (first received) proposal with that reference, and fails exactly when some reference was never received.", "quantifier": "all commits and pending lists", "why_tests_cant": "all lists", "anchors": ["group.go:resolveProposals"]}
{"id": "C26", "title": "Commits that must carry a path do", "statement": "A commit whose proposal list is empty or contains an update, remove, external-init or group-context-extensions proposal and which has no update path is rejected and changes nothing.", "quantifier": "all groups and commits", "why_tests_cant": "all commits", "anchors": ["proposal.go:proposalListNeedsPath", "group.go:processCommit"]}
{"id": "C27", "title": "The committer cannot update or remove itself through proposals", "statement": "No accepted commit applies an update proposal to, or removes, the committer's own leaf, and no accepted commit targets one leaf by two update/remove proposals.", "quantifier": "all groups and commits", "why_tests_cant": "all commits, all 32-bit leaf indices", "anchors": ["proposal.go:verifyProposalList", "tree_math.go:leafIndex.nodeIndex", "group.go:processCommit"]}
{"id": "C28", "title": "PSK secret depends on every PSK, its id, order and count", "statement": "Two equally long lists of at most 65535 (id, PSK) pairs with the same PSK secret are equal (or a KDF collision has been found); no PSKs give the all-zero secret; a different number of ids and PSKs is an error.", "quantifier": "all PSK lists", "why_tests_cant": "all pairs of lists", "anchors": ["key_schedule.go:extractPSKSecret"]}
{"id": "C29", "title": "Secret tree", "statement": "For every full tree size the secret tree derivation terminates without panic, gives every node a secret, and each leaf's secret is the one obtained from the encryption secret by expanding 'left'/'right' along the path from the root.", "quantifier": "all tree sizes and leaves", "why_tests_cant": "all sizes", "anchors": ["secret_tree.go:deriveSecretTree", "secret_tree.go:deriveChildren"]}
{"id": "C30", "title": "Message keys are separated by member, kind and generation", "statement": "The ratchet secrets used for two different (leaf, handshake/application, generation) triples of the same epoch differ unless a KDF collision has been found, and key and nonce of a generation are derived with distinct labels bound to the generation.", "quantifier": "all trees, leaves, generations", "why_tests_cant": "all triples", "anchors": ["secret_tree.go:deriveRatchetRoot", "secret_tree.go:deriveNext", "secret_tree.go:deriveTreeSecret"]}
{"id": "C31", "title": "The transcript hash commits to the commit history", "statement": "Two members that start from the same interim transcript hash and process equally many commits and end with the same confirmed transcript hash have processed the same commits (content, wire format and signature) with the same confirmation tags before the last one, or a hash collision has been found.", "quantifier": "all pairs of histories", "why_tests_cant": "unbounded histories", "anchors": ["key_schedule.go:confirmedTranscriptHashInput.hash", "key_schedule.go:nextInterimTranscriptHash"]}
{"id": "C32", "title": "The epoch secret commits to the group context", "statement": "Two epoch (or joiner) secrets that are equal were derived from the same group context (group id, epoch, tree hash, transcript hash, extensions, cipher suite), or a KDF collision has been found; KDF labels are injective in length, label and context.", "quantifier": "all contexts and secrets", "why_tests_cant": "all pairs", "anchors": ["key_schedule.go:extractEpochSecret", "key_schedule.go:extractJoinerSecret", "ciphersuite.go:expandWithLabel"]}
{"id": "C33", "title": "Application messages are delivered intact", "statement": "If CreateApplicationMessage succeeds, every member in the same group state (same context, tree leaf of the sender, epoch secret) that processes the produced bytes gets back exactly the data.", "quantifier": "all data, groups, members, randomness", "why_tests_cant": "all payloads and groups", "anchors": ["group.go:CreateApplicationMessage", "group.go:encryptPrivateMessage", "group.go:processPrivateMessage", "framing.go:encryptPrivateMessage", "framing.go:decryptContent"]}
{"id": "C34", "title": "Application messages do not change the group", "statement": "Processing bytes that yield application data leaves the group state unchanged.", "quantifier": "all groups and byte strings", "why_tests_cant": "all inputs", "anchors": ["group.go:processPrivateMessage"]}
{"id": "C35", "title": "A replayed application message is not delivered twice", "statement": "After an application message has been accepted, processing the same bytes again in the same epoch is rejected.", "quantifier": "all groups and messages", "why_tests_cant": "all messages", "anchors": ["group.go:processPrivateMessage"]}
{"id": "C36", "title": "No two messages are encrypted under the same key", "statement": "Two application messages created by one member in one epoch never use the same AEAD key and nonce.", "quantifier": "all pairs of messages and all random reuse guards", "why_tests_cant": "depends on all random outcomes", "anchors": ["group.go:encryptPrivateMessage", "framing.go:derivePrivateMessageKeyAndNonce"]}
{"id": "C37", "title": "Messages for another group or epoch are rejected", "statement": "Processing a message whose group id or epoch is not the group's current one returns an error and leaves the group unchanged.", "quantifier": "all groups and messages", "why_tests_cant": "all inputs", "anchors": ["group.go:verifyPublicMessage", "group.go:processPrivateMessage"]}
{"id": "C38", "title": "Only authenticated content is acted on", "statement": "Whenever processing a message changes the group or returns data, the content carried the group's id and epoch, was sent by a non-blank leaf of the current tree and bears a signature over that content and the current group context that verifies under that leaf's signature key, and a public message also carries a membership tag that verifies under the epoch's membership key.", "quantifier": "all groups and byte strings", "why_tests_cant": "all inputs", "anchors": ["group.go:verifyPublicMessage", "group.go:processPrivateMessage", "framing.go:verifySignature", "framing.go:verifyMembershipTag"]}
{"id": "C39", "title": "Application data never travels in the clear", "statement": "Public messages with application content, messages from non-members, and Welcome/group-info/key-package messages given to a group are rejected and change nothing.", "quantifier": "all groups and messages", "why_tests_cant": "all inputs", "anchors": ["group.go:processPublicMessage", "group.go:UnmarshalAndProcessMessage"]}
{"id": "C40", "title": "Non-zero padding is rejected", "statement": "A private message whose decrypted content is followed by a non-zero padding byte is rejected; any amount of zero padding is accepted and does not alter the content.", "quantifier": "all messages and paddings", "why_tests_cant": "all lengths", "anchors": ["framing.go:decryptContent"]}
{"id": "C41", "title": "Processing a message never panics", "statement": "For every group obtained through the API and every byte string, UnmarshalAndProcessMessage returns (with data or an error); it never panics or loops forever.", "quantifier": "all groups and byte strings", "why_tests_cant": "all hostile inputs", "anchors": ["group.go:UnmarshalAndProcessMessage", "group.go:verifyPublicMessage", "tree.go:getLeaf", "tree.go:remove"]}
{"id": "C42", "title": "Joining never panics", "statement": "For every Welcome and key pair package, GroupFromWelcome returns a group or an error; it never panics or loops forever.", "quantifier": "all Welcomes", "why_tests_cant": "all hostile inputs", "anchors": ["group.go:GroupFromWelcome", "group.go:groupFromSecrets", "tree.go:verifyIntegrity", "group.go:processPathSecret"]}
{"id": "C43", "title": "Epochs advance by exactly one per accepted commit", "statement": "Over any sequence of processed messages, the group id, cipher suite, version, own leaf index and signature key never change, and the epoch equals the initial epoch plus the number of commits accepted (modulo 2^64).", "quantifier": "all histories", "why_tests_cant": "unbounded histories", "anchors": ["group.go:processCommit"]}
{"id": "C44", "title": "Rejected messages leave the group unchanged", "statement": "If processing a message returns an error, the group's observable state (tree, context, secrets, pending proposals) is exactly what it was before.", "quantifier": "all groups and messages", "why_tests_cant": "every failure point of every message", "anchors": ["group.go:processCommit", "tree.go:ratchetTree.copy", "tree.go:add"]}
{"id": "C45", "title": "Creating a Welcome does not change the group", "statement": "CreateWelcome only returns a Welcome and a commit message; until the commit is processed the group's observable state is unchanged, whether it succeeds or fails.", "quantifier": "all groups and key packages", "why_tests_cant": "all groups", "anchors": ["group.go:CreateWelcome", "tree.go:ratchetTree.copy", "tree.go:add"]}
{"id": "C46", "title": "A commit with a wrong confirmation tag is rejected", "statement": "If a commit is accepted, its confirmation tag is the MAC of the new confirmed transcript hash under the new epoch's confirmation key.", "quantifier": "all groups and commits", "why_tests_cant": "all inputs", "anchors": ["group.go:processCommit", "framing.go:verifyConfirmationTag"]}
{"id": "C47", "title": "Existing members agree after CreateWelcome", "statement": "If CreateWelcome succeeds on valid key packages, the committer and every other member in the same state that processes the returned message accept it and end with the same tree, group context, transcript hash and secrets.", "quantifier": "all groups, key packages and randomness", "why_tests_cant": "all groups", "anchors": ["group.go:CreateWelcome", "group.go:processCommit"]}
{"id": "C48", "title": "New members agree with the group after CreateWelcome", "statement": "If CreateWelcome succeeds on valid key packages, then each invited key pair package joins through GroupFromWelcome with the same tree, group context, transcript hash and secrets as the members that process the commit, at the leaf holding its own key package.", "quantifier": "all groups, key packages and randomness", "why_tests_cant": "all groups", "anchors": ["group.go:CreateWelcome", "group.go:GroupFromWelcome"]}
{"id": "C49", "title": "All members of a group stay in agreement over any history", "statement": "Starting from CreateGroup, after any sequence of CreateWelcome (its commit delivered to every member, its Welcome to the new members) and application messages, all members have the same group context, tree and secrets, and every application message sent is received intact by every member.", "quantifier": "all histories of the library's own operations", "why_tests_cant": "unbounded histories", "anchors": ["group.go:CreateGroup", "group.go:CreateWelcome", "group.go:GroupFromWelcome", "group.go:UnmarshalAndProcessMessage"]}
{"id": "C50", "title": "Every remaining member decrypts a path commit", "statement": "For a commit whose update path was produced as the protocol prescribes on the same tree, every member other than the committer holding the private keys of its leaf and of its ancestors that do not list it as unmerged computes the committer's commit secret and again holds those private keys for the new tree.", "quantifier": "all trees, members and paths", "why_tests_cant": "all trees and positions", "anchors": ["tree.go:ratchetTree.decryptPathSecrets", "tree.go:mergeUpdatePath", "tree_math.go:commonAncestor"]}
{"id": "C51", "title": "A removed member cannot follow the group", "statement": "A member whose own leaf is blank after the proposals of a commit with a path is unable to process that commit: it returns an error.", "quantifier": "all groups and commits", "why_tests_cant": "all trees", "anchors": ["tree.go:ratchetTree.decryptPathSecrets", "group.go:processCommit"]}
{"id": "C52", "title": "A joiner derives the private keys of its ancestors", "statement": "When a Welcome carries a path secret for the common ancestor of the joiner and the committer, the joiner obtains the private key of that node and of every non-blank ancestor that is in the committer's path.", "quantifier": "all trees and positions", "why_tests_cant": "all trees and depths", "anchors": ["group.go:processPathSecret"]}
{"id": "C53", "title": "Keys stay unique in the tree", "statement": "If all signature keys and all encryption keys in the tree are pairwise distinct, they still are after any accepted commit.", "quantifier": "all groups and commits", "why_tests_cant": "all commits", "anchors": ["group.go:processCommit", "key_package.go:verify", "tree.go:leafNode.verify"]}
{"id": "C54", "title": "Accepted leaves are valid leaves", "statement": "If every leaf in the tree has a valid signature for its group and position, every leaf still has after any accepted commit.", "quantifier": "all groups and commits", "why_tests_cant": "all commits", "anchors": ["group.go:processCommit", "key_package.go:KeyPackage.verify"]}
{"id": "C55", "title": "Group context extension proposals take effect", "statement": "After accepting a commit with a group-context-extensions proposal, the group's extensions are the proposed ones; otherwise they are unchanged.", "quantifier": "all groups and commits", "why_tests_cant": "all commits", "anchors": ["group.go:processCommit"]}
{"id": "C56", "title": "PSK proposals enter the key schedule", "statement": "A commit containing PSK proposals is only accepted with the PSK secret of those PSKs mixed into the new epoch secret.", "quantifier": "all groups and commits", "why_tests_cant": "all commits", "anchors": ["group.go:processCommit", "group.go:processPublicMessage"]}
{"id": "C57", "title": "Added key packages are validated", "statement": "Every key package added by an accepted commit has the group's version and cipher suite, a key-package leaf source, a valid key package signature and different init and encryption keys.", "quantifier": "all groups and commits", "why_tests_cant": "all commits", "anchors": ["key_package.go:KeyPackage.verify", "group.go:processCommit"]}
{"id": "C58", "title": "A Welcome only admits its addressees", "statement": "Welcome.NewMembers lists exactly the references of the invited key packages in order, and GroupFromWelcome fails for a key pair package whose reference is not listed.", "quantifier": "all Welcomes and key packages", "why_tests_cant": "all inputs", "anchors": ["group.go:NewMembers", "group.go:findSecret", "group.go:decryptGroupSecrets"]}
{"id": "C59", "title": "Joining requires a consistent, signed, confirmed group", "statement": "Whenever GroupFromWelcome succeeds, the group info was signed by the non-blank leaf it names, its confirmation tag verifies under the epoch secret the joiner derives, the tree hash matches, the tree is valid, and the joiner's own leaf is in the tree at the reported position.", "quantifier": "all Welcomes", "why_tests_cant": "all inputs", "anchors": ["group.go:groupFromSecrets"]}
{"id": "C60", "title": "Generated key packages are valid", "statement": "A key pair package from GenerateKeyPairPackage has a public part that verifies, survives Bytes/UnmarshalKeyPackage, and (keys being distinct) is accepted as an Add by any group of the same cipher suite.", "quantifier": "all credentials, key material and times", "why_tests_cant": "all randomness", "anchors": ["key_package.go:GenerateKeyPairPackage", "key_package.go:verify"]}
{"id": "C61", "title": "Supported cipher suites", "statement": "Exactly the cipher suites 1, 2, 3 and 7 report Supported; no other 16-bit value does.", "quantifier": "all 16-bit values", "why_tests_cant": "65536 values (finite, but the reason for the exclusion is arithmetic on sizes)", "anchors": ["ciphersuite.go:Supported", "ciphersuite.go:cipherSuiteDescriptions"]}
{"id": "C62", "title": "Unknown cipher suites are reported as errors", "statement": "No API call panics because a decoded key package or Welcome names an unknown cipher suite.", "quantifier": "all byte strings", "why_tests_cant": "all inputs", "anchors": ["ciphersuite.go:hash", "ciphersuite.go:hpke", "key_package.go:GenerateRef", "group.go:GroupFromWelcome"]}
{"id": "C63", "title": "Reinit/branch PSK uniqueness", "statement": "Group secrets pass the reinit/branch check exactly when at most one PSK id is a resumption PSK with usage reinit or branch; a Welcome with any PSK is refused by GroupFromWelcome.", "quantifier": "all group secrets", "why_tests_cant": "all lists", "anchors": ["group.go:verifySingleReinitOrBranchPSK", "group.go:GroupFromWelcome"]}
{"id": "C64", "title": "Proposals received are remembered until the next commit", "statement": "Accepting a proposal message appends exactly that proposal with its sender and reference to the pending list and changes nothing else; accepting a commit empties the list.", "quantifier": "all groups and messages", "why_tests_cant": "all inputs", "anchors": ["group.go:processProposal", "group.go:processCommit"]}
{"id": "C65", "title": "The wire format is that of RFC 9420", "statement": "For every structure, and for everything that is signed, authenticated, hashed or given to the KDF, the encoder either refuses or produces exactly the bytes RFC 9420 prescribes (written down independently of the code), and it does produce them for every well-formed value whose encoding is below 2^30 bytes; every decoder returns a well-formed value from its encoding followed by anything, leaving what follows; what a decoder accepts is the prescribed encoding of the value it returns, where key packages and group information have a signature.", "quantifier": "all values and byte strings", "why_tests_cant": "round-trip tests cannot see a format that is wrong both ways, and vectors are finite", "anchors": ["mls.go", "tree.go:marshal", "framing.go:marshal", "proposal.go:marshal", "group.go:marshal", "key_schedule.go:marshal"]}
{"id": "C66", "title": "Key schedule, transcript hashes, references and labels are those of RFC 9420", "statement": "The cipher suite table is that of RFC 9420 section 17.1; the labelled KDF, joiner, welcome, epoch and PSK secrets, exporter, confirmation tag, transcript hashes, key package and proposal references and labelled HPKE encryption return exactly the value RFC 9420 prescribes (written down independently of the code) or refuse, and do not refuse known suites and inputs of ordinary size.", "quantifier": "all suites, secrets, contexts and lengths", "why_tests_cant": "test vectors are finite; a wrong label or order shows only where a vector covers it", "anchors": ["ciphersuite.go", "key_schedule.go", "key_package.go:GenerateRef", "framing.go:generateProposalRef"]}
{"id": "C67", "title": "New groups and new epochs are those of RFC 9420", "statement": "CreateGroup returns the one-member group of RFC 9420 section 11; an accepted commit gives the group context, transcript hashes, commit secret, epoch secret and init secret of sections 8 and 12.4.2 for the new tree.", "quantifier": "all groups obtained through the API and all accepted commits", "why_tests_cant": "all groups and commits", "anchors": ["group.go:CreateGroup", "group.go:processCommit", "tree.go:ratchetTree.decryptPathSecrets"]}
{"id": "C68", "title": "Message protection is that of RFC 9420", "statement": "CreateApplicationMessage returns the encoding of the private message RFC 9420 section 6.3 prescribes for the member's leaf, with the signature of section 6.1; content found in a private message is protected in it as that section prescribes, by the ratchet of the leaf named in the encrypted sender data; membership tags are those of section 6.2; a public message that the library signs and tags is taken by the members of the epoch for what it is.", "quantifier": "all groups obtained through the API, data and byte strings", "why_tests_cant": "all inputs", "anchors": ["group.go:CreateApplicationMessage", "group.go:encryptPrivateMessage", "group.go:processPrivateMessage", "framing.go", "secret_tree.go"]}
{"id": "C69", "title": "Commits that add members and their Welcomes are those of RFC 9420", "statement": "The message and Welcome returned by CreateWelcome are the commit of Add proposals without path, with the confirmation tag of the new epoch, and the Welcome of RFC 9420 sections 12.4.1 and 12.4.3.1 for it: signed group information with the new tree under the welcome key, and group secrets encrypted to each init key.", "quantifier": "all groups obtained through the API, key packages and randomness", "why_tests_cant": "all groups", "anchors": ["group.go:CreateWelcome", "group.go:groupInfo.encrypt", "group.go:groupSecrets.encrypt"]}
{"id": "C70", "title": "The tree after a commit", "statement": "After an accepted commit the member's tree is the previous one with the updates applied, then the removals, then the additions, one by one and as RFC 9420 sections 7.7, 12.1 and 12.3 prescribe, and then, if the commit has a path, the update path merged as section 7.5 prescribes; the leaf node of the path has the source commit, is signed for the group and the leaf, lists its extensions, has a credential type all members support, and brings no signature or encryption key of another member.", "quantifier": "all groups obtained through the API and all accepted commits", "why_tests_cant": "all trees, proposal lists and paths", "anchors": ["group.go:processCommit", "tree.go:apply", "tree.go:mergeUpdatePath", "tree.go:leafNode.verify"]}
{"id": "C71", "title": "Trees ending with a blank node are refused", "statement": "Joining refuses a ratchet_tree extension whose last node is blank (RFC 9420 section 12.4.3.3), and extends an accepted one to the right with the fewest blank nodes that make it a full tree.", "quantifier": "all Welcomes and key packages", "why_tests_cant": "hostile Welcomes are unbounded in number", "anchors": ["tree.go:ratchetTree.unmarshal", "group.go:groupFromSecrets"]}
{"id": "C72", "title": "Members hold the private keys of their path", "statement": "A member has the private keys of its leaf and of every node above it that does not list it as unmerged, fitting the public keys in the tree: founders and joiners start with them (joiners when the tree lists them as unmerged wherever they cannot derive the key), and they have them after every message processed, accepted or not, and every CreateWelcome, as long as their leaf keeps its encryption key.", "quantifier": "all groups obtained through the API, all messages and Welcomes", "why_tests_cant": "all trees, paths and histories", "anchors": ["group.go:processCommit", "group.go:groupFromSecrets", "tree.go:ratchetTree.decryptPathSecrets", "group.go:CreateGroup"]}
{"id": "C73", "title": "Parent nodes are parent-hash valid as RFC 9420 defines it", "statement": "Every non-blank parent node in the tree of a member is parent-hash valid as section 7.9.2 of RFC 9420 defines it: some node in the resolution of one child has its parent hash, and the other nodes of this resolution are exactly the unmerged leaves of the parent node below this child. It holds when a group is created, when a member joins, and after every message accepted.", "quantifier": "all groups obtained through the API, all messages and Welcomes", "why_tests_cant": "all trees, paths and histories", "anchors": ["tree.go:verifyParentHashes", "tree.go:mergeUpdatePath", "tree.go:add", "tree.go:remove", "group.go:processCommit"]}
{"id": "C74", "title": "Valid messages are accepted", "statement": "A member accepts every message that another member of its epoch made as RFC 9420 prescribes: application data in private messages is returned, proposals become pending, and a commit whose proposals satisfy the rules and whose update path is the prescribed one leads to the prescribed tree. For a commit with a path the member must have its keys, every node above both the member and a newly added leaf must be above the committer, no member lists a credential type twice, and all sizes must be below 2^27 bytes.", "quantifier": "all groups obtained through the API with a known suite, all contents, senders, generations, paddings, proposals and paths", "why_tests_cant": "all trees, proposals, paths and histories", "anchors": ["group.go:UnmarshalAndProcessMessage", "group.go:processCommit", "group.go:processPublicMessage", "group.go:processPrivateMessage", "tree.go:ratchetTree.decryptPathSecrets"]}
{"id": "C75", "title": "Valid Welcomes are accepted", "statement": "A Welcome made as RFC 9420 section 12.4.3.1 prescribes lets the owner of an invited key package join at their leaf with the tree, group context and epoch secret of the Welcome, if its tree is valid and current, it carries no PSKs, and a path secret only where the new member and the committer have at most two common ancestors, all in the committer's path.", "quantifier": "all Welcomes, key packages, trees and group information of encodable size", "why_tests_cant": "all groups and positions", "anchors": ["group.go:GroupFromWelcome", "group.go:groupFromSecrets", "group.go:processPathSecret", "tree.go:verifyIntegrity"]}
{"id": "C76", "title": "Making key packages, groups, messages and Welcomes succeeds", "statement": "For the cipher suites that are described, generating a key package, creating a group, sending application data and inviting any number of others returns no error and does not panic, if what is to be encoded is below 2^26 bytes, the member holds the signature key of its leaf, the invited key packages have keys that can be encrypted to, and the tree has room.", "quantifier": "all cipher suites, credentials, groups obtained in any way, data, lists of key packages and random bytes", "why_tests_cant": "all states and sizes", "anchors": ["key_package.go:GenerateKeyPairPackage", "group.go:CreateGroup", "group.go:CreateApplicationMessage", "group.go:CreateWelcome"]}
{"id": "C77", "title": "Members who accept the same messages agree, whoever sent them", "statement": "Two members in agreement with the same pending proposals who both accept the same message get the same application data from it and agree afterwards on the group context, the tree, the transcript hash and the pending proposals, and on the epoch and init secrets too unless the commit's path made them derive two different path secrets whose node keys are the same: a committer that encrypts different path secrets to different members cannot make them enter different epochs. This extends to any sequence of messages that both accept.", "quantifier": "all pairs of groups obtained in any way that agree, all byte strings, all commits, honest or not, all sequences of messages, all times", "why_tests_cant": "arbitrary hostile paths and histories of any length", "anchors": ["tree.go:ratchetTree.decryptPathSecrets", "tree.go:nodePrivFromPathSecret", "group.go:processCommit", "group.go:UnmarshalAndProcessMessage"]}
{"id": "C78", "title": "Members with the same epoch secret have the same view of the group", "statement": "Two members who have just entered an epoch, each by accepting a commit or by joining with a Welcome, and have the same epoch secret, have the same group context, ratchet tree and joiner secret. If both accepted a commit, it had the same content, signature and commit secret, and they came from the same epoch secret and interim transcript hash. Otherwise two calls of the hash or key derivation functions that they made collide.", "quantifier": "all pairs of members, however they got there and whoever sent what they accepted", "why_tests_cant": "all states, trees and hostile messages", "anchors": ["key_schedule.go:extractEpochSecret", "key_schedule.go:extractJoinerSecret", "group.go:processCommit", "group.go:groupFromSecrets", "tree.go:computeRootTreeHash", "tree.go:verifyIntegrity"]}
{"id": "C79", "title": "Those who join with the same Welcome agree, whoever made it", "statement": "Two key packages that join with the same Welcome get the same tree, group context, transcript hash, epoch secret and init secret and no pending proposals, unless the group secrets for them have different joiner secrets and the one encrypted group information opens under both of the keys derived from them.", "quantifier": "all Welcomes, honest or not, all pairs of key packages and times", "why_tests_cant": "arbitrary hostile Welcomes", "anchors": ["group.go:GroupFromWelcome", "group.go:groupFromSecrets", "group.go:decryptGroupSecrets", "group.go:decryptGroupInfo"]}
{"id": "C80", "title": "Members follow any history of well-made messages", "statement": "If one member accepts a sequence of messages, in which every commit with a path has the path RFC 9420 prescribes and leaves the keys of the members alone, then every other member who agreed with them at the start and held their private keys accepts the same messages, gets the same data, and agrees with them at the end; and both still hold their private keys. Excepted are commits with a path that put a new leaf beside a member, below the committer's direct path (C50).", "quantifier": "all members in agreement, all sequences of messages of any length, all cipher suites, for encryption that decrypts what it encrypted", "why_tests_cant": "unboundedly many messages, members and trees", "anchors": ["group.go:UnmarshalAndProcessMessage", "group.go:processCommit", "group.go:processProposal", "tree.go:apply", "tree.go:ratchetTree.decryptPathSecrets", "group.go:processPathSecret"]}
{"id": "C81", "title": "Proposals committed by reference are the ones their senders signed", "statement": "Every proposal a member holds for later commits was signed in the current epoch by the member it is attributed to, and is held under the reference of that very message. So each proposal of an accepted commit is either the committer's own, written in the commit, or one that the member it is attributed to signed in this epoch and whose reference is in the commit. A proposal reference, and a key package reference, stands for one message or key package only, unless the hash function collides on the two.", "quantifier": "all groups that the operations can produce, after any sequence of operations and messages; all message contents, key packages and cipher suites", "why_tests_cant": "arbitrary sequences of hostile messages; absence of confusions between all pairs of messages", "anchors": ["group.go:processProposal", "group.go:processCommit", "framing.go:generateProposalRef", "key_package.go:GenerateRef", "ciphersuite.go:refHash"]}
{"id": "C82", "title": "Who accepts the same commits agrees, whatever else was received", "statement": "Two members who agree and then accept the same commits, while each of them comes across any other messages (proposals and application messages that the other does not get, in any order, and messages they reject or invitations they make without effect), agree at the end; unless at one of the commits two different path secrets give one public key, or two different proposal messages have one reference, which the theorem exhibits.", "quantifier": "all pairs of members in agreement, all sequences of messages from anyone, honest or not", "why_tests_cant": "unboundedly many interleavings of messages of arbitrary senders", "anchors": ["group.go:UnmarshalAndProcessMessage", "group.go:processProposal", "group.go:processCommit", "group.go:resolveProposals"]}
{"id": "C83", "title": "Nobody changes another member's leaf", "statement": "When a member accepts a commit, every leaf of the tree stays as it is, unless a proposal of the commit removes it or the member at that leaf signed its replacement in this epoch: in a path or update of its own commit, or in an update proposal that the commit refers to. Every leaf node that is new in the tree was signed for in this way by the member who was at that leaf, or was added by a proposal of the commit. Over any sequence of messages, a leaf stays until the first such removal or replacement.", "quantifier": "all groups the operations can produce, all sequences of messages from anyone, honest or not, all leaves", "why_tests_cant": "arbitrary sequences of hostile messages and trees of any size", "anchors": ["group.go:processCommit", "group.go:resolveProposals", "group.go:verifyPublicMessage", "tree.go:apply", "tree.go:mergeUpdatePath"]}
{"id": "C84", "title": "Decoding takes no more memory than the input is long", "statement": "Decoding a message allocates at most as many bytes for buffers and elements of slices as the message has bytes, whether the message is accepted or not. A decoded ratchet tree has at most twice as many slots as its encoding has bytes.", "quantifier": "all byte strings", "why_tests_cant": "a bound for every byte string of any length, including hostile length prefixes in any nested field", "anchors": ["mls.go:readOpaqueVec", "mls.go:readVector", "framing.go:mlsMessage.unmarshal", "key_package.go:unmarshal", "tree.go:ratchetTree.unmarshal"]}
{"id": "C85", "title": "The work for one message is limited", "statement": "The receiver limits how often one message can make it advance a message ratchet: there is a number below 2^32 - 1 that no message exceeds. Messages that are not from a member of this epoch make it advance no ratchet.", "quantifier": "all groups, all messages from anyone, all generations", "why_tests_cant": "all generations up to 2^32 - 1 and all messages; running the worst case takes hours", "anchors": ["group.go:processPrivateMessage", "secret_tree.go:deriveNext", "framing.go:decryptSenderData"]}
{"id": "C86", "title": "Parent keys come from below and outlive no member", "statement": "Every parent node in a member's tree was there when they joined, or its key was in the path of a commit that a member below the node signed. From then on, through any messages, accepted or not, and invitations, no leaf below the node has been replaced or removed, and every leaf that was added below it is listed as unmerged. So whoever is below a parent node and not listed there was below it when its key was made.", "quantifier": "all groups the operations can produce, all sequences of messages from anyone, honest or not, all nodes", "why_tests_cant": "all histories of all lengths, all trees, hostile committers", "anchors": ["tree.go:ratchetTree.apply", "tree.go:ratchetTree.mergeUpdatePath", "tree.go:ratchetTree.add", "group.go:processCommit"]}
{"id": "C87", "title": "Members hold well-formed values", "statement": "Whatever messages and Welcomes a member is given, if the key packages passed to CreateGroup and CreateWelcome were well formed then every node of their tree, their group context, their leaf index and their pending proposals are well formed: integers are within their types, and fields that are not transmitted for a tag are zero. So whatever of these the library encodes decodes to the same value.", "quantifier": "all groups the operations can produce, all sequences of messages and Welcomes from anyone", "why_tests_cant": "an invariant over all histories, with hostile input", "anchors": ["tree.go:ratchetTree.add", "tree.go:ratchetTree.mergeUpdatePath", "group.go:processCommit", "group.go:groupFromSecrets"]}
{"id": "C88", "title": "Whoever is invited gets the tree of the inviter", "statement": "The ratchet tree that a member puts in the group information of a Welcome decodes to their tree with the new members, of the same size, whose hash is the one in the same group information.", "quantifier": "all groups the operations can produce, all lists of invited key packages", "why_tests_cant": "the encoding drops trailing blank nodes, so it is only faithful because of an invariant over all histories (a member in the right half of the tree), which a Welcome can break", "anchors": ["tree.go:ratchetTree.marshal", "tree.go:ratchetTree.unmarshal", "tree.go:ratchetTree.remove", "group.go:CreateWelcome", "group.go:groupFromSecrets"]}
{"id": "C89", "title": "Checking a received tree takes little work", "statement": "Verifying the ratchet tree of a Welcome with n nodes computes hashes and verifies leaf nodes at most (n + 1)(log2(n + 1) + 1) times, although every parent node is checked with hashes of everything below it; and n is at most twice the number of bytes received.", "quantifier": "all byte strings received as trees, all group contexts, valid or not", "why_tests_cant": "all trees of all sizes, hostile ones too; tests only time a few", "anchors": ["tree.go:ratchetTree.verifyIntegrity", "tree.go:ratchetTree.verifyParentHashes", "tree.go:ratchetTree.computeTreeHash", "tree.go:ratchetTree.unmarshal"]}
{"id": "C90", "title": "Members support what is used in their group", "statement": "In every group, each leaf node lists the types of its own extensions and the credential types of all the members, and has the capabilities that the required_capabilities extension of the group context requires; joining and commits keep this so.", "quantifier": "all groups the operations can produce, all Welcomes, all commits", "why_tests_cant": "an invariant over all histories, with hostile members", "anchors": ["tree.go:leafNode.verify", "tree.go:ratchetTree.supportedCreds", "group.go:processCommit", "key_package.go:KeyPackage.verify"]}
{"id": "C91", "title": "A private message shows only its group, epoch, kind and length", "statement": "The application messages and commits that a member sends show an outsider the group, the epoch, the kind of content and a length, but neither the sender nor the content: two messages of the same group, epoch, kind and length cannot be told apart without the secrets of the epoch.", "quantifier": "all groups, members, data and key packages, all randomness", "why_tests_cant": "a relation between any two runs", "anchors": ["group.go:Group.CreateApplicationMessage", "group.go:Group.CreateWelcome", "group.go:Group.encryptPrivateMessage", "framing.go:encryptPrivateMessage"]}
{"id": "C92", "title": "A Welcome shows only its addressees", "statement": "A Welcome shows an outsider the cipher suite, the references of the key packages it is for and the length of the group information, but nothing of the group, its members, its epoch, its secrets or who invites.", "quantifier": "all groups and key packages, all randomness", "why_tests_cant": "a relation between any two runs", "anchors": ["group.go:Group.CreateWelcome", "group.go:groupInfo.encrypt", "group.go:groupSecrets.encrypt"]}
{"id": "C93", "title": "Accepting a commit erases the secrets of the epoch it ends", "statement": "The state of a member who has accepted a commit depends on the epoch secret, init secret and PSK secret that it had before only through key derivation: none of them is kept.", "quantifier": "all groups, all accepted commits", "why_tests_cant": "a relation between any two runs", "anchors": ["group.go:Group.processCommit", "key_schedule.go:extractJoinerSecret"]}
{"id": "C94", "title": "Messages come from the member they name", "statement": "Whenever a member accepts a message as coming from a leaf, and the bytes whose signature was checked are bytes that the owner of that leaf's key has signed by a call of this library, then the owner called CreateApplicationMessage with exactly the data received, or CreateWelcome with exactly the key packages of the commit, as the member at that leaf and with the same group context (group, epoch, tree, history).", "quantifier": "all groups, all byte strings, all sets of calls", "why_tests_cant": "a statement about whatever an attacker may send, given everything that was ever signed", "anchors": ["group.go:Group.UnmarshalAndProcessMessage", "group.go:Group.CreateApplicationMessage", "group.go:Group.CreateWelcome", "framing.go:signAuthenticatedContent"]}
{"id": "C95", "title": "Joiners are in the group of the member that invited them", "statement": "Whenever GroupFromWelcome succeeds, and the bytes whose signature was checked are bytes that the owner of the signer's key has signed by a call of this library, then the owner called CreateWelcome, and the joiner has the group context, the confirmation tag and the tree of the epoch begun by this call.", "quantifier": "all Welcomes, all sets of calls", "why_tests_cant": "a statement about whatever an attacker may send, given everything that was ever signed", "anchors": ["group.go:GroupFromWelcome", "group.go:groupInfo.verifySignature", "group.go:Group.CreateWelcome"]}
{"id": "C96", "title": "Added members have generated their key packages", "statement": "For each key package added by an accepted commit, if the bytes whose signature was checked are bytes that the owner of its signature key has signed by a call of this library, then the key package is, but for its signature, one that the owner got from GenerateKeyPairPackage.", "quantifier": "all groups and commits, all sets of calls", "why_tests_cant": "a statement about whatever an attacker may send, given everything that was ever signed", "anchors": ["key_package.go:GenerateKeyPairPackage", "key_package.go:KeyPackage.verify", "group.go:Group.processCommit"]}
{"id": "C97", "title": "The clock matters only for lifetimes when joining", "statement": "What a member does with a message does not depend on the clock. A Welcome that can be joined at one time can be joined at another time, giving the same group, exactly if the lifetimes of all members of the group are current at that time, and is otherwise refused because of a lifetime.", "quantifier": "all groups, all byte strings, all pairs of times; all Welcomes, key pairs and pairs of times later than 90 days after 1970", "why_tests_cant": "all inputs and pairs of times", "anchors": ["group.go:Group.UnmarshalAndProcessMessage", "group.go:GroupFromWelcome", "tree.go:leafNode.verify"]}
{"id": "C98", "title": "Members in agreement respond alike to all but update paths", "statement": "Two members in agreement with the same pending proposals respond to any byte string that is not a commit with an update path with the same data, the same acceptance or the same error, at any times; if they accept it, they agree afterwards and have the same pending proposals. So only an update path can be accepted by some of them and rejected by others.", "quantifier": "all pairs of groups obtained in any way that agree, all byte strings from anyone, all times", "why_tests_cant": "all byte strings and pairs of groups", "anchors": ["group.go:Group.UnmarshalAndProcessMessage", "group.go:Group.processCommit", "group.go:Group.processPrivateMessage", "group.go:Group.processPublicMessage"]}
{"id": "C99", "title": "Exactly which members follow an update path", "statement": "If a member accepts a commit with an update path, whoever made it, then any other member in agreement with the same pending proposals accepts it exactly if they can read it: the first node of the resolution of their side of the path whose private key they hold has a ciphertext at its place, which opens with that key to a path secret that gives the keys of all nodes of the path from there on. The only other possibility is that the path gives the two members different secrets with the same public key. The member who accepts has read the path themself.", "quantifier": "all pairs of groups obtained in any way that agree, all byte strings from anyone that one of them accepts as a commit with a path, all times", "why_tests_cant": "all groups, byte strings and paths, including those made by attackers", "anchors": ["group.go:Group.processCommit", "tree.go:ratchetTree.mergeUpdatePath", "group.go:Group.UnmarshalAndProcessMessage", "tree.go:ratchetTree.decryptPathSecrets", "tree.go:ratchetTree.resolve"]}
{"id": "C100", "title": "New members learn nothing of the secrets of earlier epochs", "statement": "The Welcome that CreateWelcome makes does not depend on the epoch secret or the PSK secret of the epoch in which it is made: with any others the Welcome is the same. It depends on the init secret through key derivation only: with any key derivation that does not show secret values, groups that differ in epoch secret, init secret and PSK secret make the same Welcome and the same commit message. So someone who joins by the Welcome learns nothing from it of the secrets of earlier epochs.", "quantifier": "all groups, all pairs of secrets, all lists of key packages, all random bytes; for the init secret, all cryptographic functions that satisfy the one-way condition", "why_tests_cant": "independence compares the outputs for all secrets", "anchors": ["group.go:Group.CreateWelcome", "key_schedule.go:groupContext.extractJoinerSecret", "key_schedule.go:extractWelcomeSecret"]}
{"id": "C101", "title": "Only the proposals that a commit refers to matter", "statement": "The answer of a member to any bytes, and their next state, do not change if their pending proposals are replaced by others that agree about the references of the commit that the bytes carry, if they carry one; other lists stay other lists until a commit is accepted, which makes the states equal. Lists agree if one has other proposals in between, or proposals received again, or the same proposals in another order. So members in agreement who have received different proposals give the same answer to a commit without update path that refers to proposals that they know alike. CreateWelcome does not depend on pending proposals.", "quantifier": "all groups, all byte strings from anyone, all pairs of lists of pending proposals, all times", "why_tests_cant": "all pairs of lists of pending proposals and all messages", "anchors": ["group.go:resolveProposals", "group.go:Group.processCommit", "group.go:Group.processProposal", "group.go:Group.UnmarshalAndProcessMessage", "group.go:Group.CreateWelcome"]}
{"id": "C102", "title": "The order of updates and removals in a commit does not matter", "statement": "The tree that results from the proposals of a commit does not depend on the order of its updates, on the order of its removals, or on how proposals of different types are interleaved; only the order of the additions counts. So if members in agreement accept two commits whose proposals differ in this way only, then the update paths are merged into the same tree, and the same update path of the same sender gives the same tree.", "quantifier": "all trees, all pairs of proposal lists with the same updates, removals and additions; all pairs of groups in agreement and commits that they accept, with leaf indexes below 2^31", "why_tests_cant": "all trees and all permutations of proposals", "anchors": ["tree.go:ratchetTree.apply", "tree.go:ratchetTree.update", "tree.go:ratchetTree.remove", "group.go:Group.processCommit"]}
{"id": "C103", "title": "Members with different pasts do not hear each other", "statement": "If two members who were in agreement have, after processing whichever messages each of them received, the same group context, then they have accepted the same commits: the same wire formats, contents and signatures, and the same confirmation tags but for the last; or two hashes that they computed collide. So if the bytes that the receiver of a message verifies have been signed by a call, then the message, if it is acted on at all, comes from a call of a member who has accepted the same commits as the receiver: members that have been led apart act on nothing from each other.", "quantifier": "all pairs of groups in agreement that come from the API, all pairs of lists of messages and clock readings with less than 2^64 commits, all further messages", "why_tests_cant": "all histories of two members and all messages", "anchors": ["group.go:Group.UnmarshalAndProcessMessage", "group.go:Group.processCommit", "group.go:Group.verifyPublicMessage", "key_schedule.go:confirmedTranscriptHashInput.hash", "framing.go:framedContentAuthData.verifySignature"]}
{"id": "C104", "title": "Names of cipher suites are right and unique", "statement": "CipherSuite.String spells the algorithms that the library uses for the suite, in the way of RFC 9420, section 17.1; for every other number it is that number in decimal digits between angle brackets; and different cipher suites have different names.", "quantifier": "all numbers of cipher suites", "why_tests_cant": "all 65536 values and all pairs of them; the table of names and the table of algorithms are separate", "anchors": ["ciphersuite.go:CipherSuite.String", "ciphersuite.go:cipherSuiteDescriptions"]}
{"id": "C105", "title": "The work for one message is linear", "statement": "Apart from the steps of the message ratchet (C85), processing one message takes a number of hashes, MACs, key derivations, signature verifications and decryptions that is linear in the size of the ratchet tree and of the message; and the tree after it is at most twice as large, plus four nodes for every byte of the message.", "quantifier": "all messages, all groups that were obtained by the functions of the library, all clocks; AEAD algorithms whose plaintexts are no longer than the ciphertexts", "why_tests_cant": "all messages and trees of all sizes, including messages made to be expensive; a quadratic cost shows only in large groups", "anchors": ["group.go:Group.UnmarshalAndProcessMessage", "group.go:Group.processCommit", "tree.go:ratchetTree.mergeUpdatePath", "tree.go:ratchetTree.decryptPathSecrets", "secret_tree.go:deriveSecretTree"]}
{"id": "C106", "title": "The work for creating, joining, inviting and sending is limited", "statement": "Creating a group takes at most five cryptographic operations. Joining from a Welcome of n bytes takes a number of them that grows like n log n, and gives a tree of at most 2n nodes, whatever the bytes are. Sending a message and inviting new members take a number of them that is linear in the size of the ratchet tree and the number of the invited.", "quantifier": "all Welcomes and key pairs, all groups that were obtained by the functions of the library, all key packages, all clocks and random bytes; AEAD algorithms whose plaintexts are no longer than the ciphertexts", "why_tests_cant": "all Welcomes, including those made to be expensive, and trees of all sizes", "anchors": ["group.go:CreateGroup", "group.go:GroupFromWelcome", "group.go:groupFromSecrets", "group.go:processPathSecret", "group.go:Group.CreateWelcome", "group.go:Group.CreateApplicationMessage"]}
{"id": "C107", "title": "What is accepted in one epoch is rejected in all later ones", "statement": "A message that a member accepts, or would accept, before a commit is rejected without effect after it, whatever the member receives in between. So of the commits of one epoch a member accepts one, and no commit is accepted twice.", "quantifier": "all groups, messages and histories with fewer than 2^64 commits, all clocks", "why_tests_cant": "all histories of any length between the two times the message is received", "anchors": ["group.go:Group.verifyPublicMessage", "group.go:Group.processPrivateMessage", "group.go:Group.processCommit"]}
{"id": "C108", "title": "A proposal that is received again is not stored again", "statement": "Receiving a proposal message again in the same epoch does not change the group: the proposal is kept once, so that replaying a message uses up no memory.", "quantifier": "all groups, proposal messages, numbers of replays and clocks", "why_tests_cant": "all proposals of all groups; the memory is used up only by very many replays", "anchors": ["group.go:Group.processProposal", "group.go:Group.UnmarshalAndProcessMessage"]}
{"id": "C109", "title": "CreateWelcome refuses key packages that the members would refuse", "statement": "If a key package given to CreateWelcome is not valid in the group (version, cipher suite, leaf node source, equal keys, signature), or two of them have the same signature key, CreateWelcome returns an error instead of a Welcome and a commit that every member rejects.", "quantifier": "all groups that were obtained through the API, lists of key packages, random bytes, agreeing members and clocks", "why_tests_cant": "all lists of key packages and all groups; tests only invite valid packages", "anchors": ["group.go:Group.CreateWelcome", "group.go:verifyProposalList", "key_package.go:KeyPackage.verify"]}
{"id": "C110", "title": "A committed reinit proposal ends the group", "statement": "After a member has accepted a commit that contains a reinit proposal, the group is only kept to start its successor: it neither sends application messages nor invites further members (RFC 9420, sections 11.2 and 12.4.2).", "quantifier": "all groups that were obtained through the API, accepted commits with a reinit proposal and messages sent afterwards", "why_tests_cant": "all groups, reinit proposals and later messages; the test vectors have no reinit followed by messages", "anchors": ["group.go:Group.processCommit", "proposal.go:verifyProposalList", "tree.go:ratchetTree.apply"]}
{"id": "C111", "title": "A removal in an accepted commit removes a member", "statement": "Every remove proposal of a commit that a member accepts designates a leaf with a member (RFC 9420, section 12.1.3).", "quantifier": "all groups that were obtained through the API, commits and remove proposals in them", "why_tests_cant": "all trees, positions of blank leaves and proposal lists", "anchors": ["proposal.go:verifyProposalList", "tree.go:ratchetTree.apply", "tree.go:ratchetTree.remove", "group.go:Group.processCommit"]}
{"id": "C112", "title": "A member accepts exactly the messages it has to accept", "statement": "UnmarshalAndProcessMessage succeeds for a message exactly if it decodes and opens to a content that is authentic in the current epoch (and, for a public message, carries the right membership tag) and: application data comes in a private message; a commit has a member as sender, its proposals resolve, obey the rules on lists and, without a path, are not of a kind that needs one, added key packages are addable, and the proposals can be applied one by one to give a tree that can be encoded; a path passes the checks on its leaf and keys, gives a parent-hash linked tree that can be encoded, and contains a secret that the member finds and that gives the keys of the path. Any other byte string is rejected and leaves the group as it was.", "quantifier": "all groups that were obtained through the API, byte strings, and behaviours of the cryptography that satisfy its laws", "why_tests_cant": "an equivalence over all messages and states; tests can only sample either direction", "anchors": ["group.go:Group.UnmarshalAndProcessMessage", "group.go:Group.verifyPublicMessage", "group.go:Group.processPrivateMessage", "group.go:Group.processProposal", "group.go:Group.processCommit", "proposal.go:verifyProposalList", "tree.go:ratchetTree.apply"]}
{"id": "C113", "title": "A Welcome is accepted exactly if it is a valid one", "statement": "GroupFromWelcome succeeds for a Welcome, a key pair package and a time, and gives a group with a given tree, context and own leaf, exactly if: the first encrypted group secrets for the reference of the key package open with its init key; they name no PSKs; the group information opens with the welcome key and nonce and decodes; its context has the cipher suite of the Welcome; its first ratchet_tree extension decodes to the tree, which is well shaped and passes the integrity checks of the RFC at that time; it is signed by the leaf it names; its confirmation tag is that of the epoch secret; the leaf of the key package is in the tree at the own leaf; and a path secret gives the key of the lowest common ancestor of signer and own leaf, and the one secret derived from it the keys of all nodes above.", "quantifier": "all Welcomes, key pair packages, times after 1970, trees, contexts, leaves, and behaviours of the cryptography that satisfy its laws", "why_tests_cant": "an equivalence over all Welcomes and key packages; tests sample either direction, and there is only a handful of recorded Welcomes", "anchors": ["group.go:GroupFromWelcome", "group.go:groupFromSecrets", "group.go:Welcome.decryptGroupSecrets", "group.go:Welcome.decryptGroupInfo", "group.go:Welcome.findSecret", "tree.go:ratchetTree.verifyIntegrity", "tree.go:ratchetTree.findLeaf"]}
{"id": "C114", "title": "CreateGroup refuses key packages with which nobody could join", "statement": "If the leaf node of the key package given to CreateGroup is not valid for the new group (signature, lifetime, extensions it does not list), CreateGroup returns an error instead of a group that nobody can be invited to.", "quantifier": "all group ids, key pair packages, random bytes, invited key packages, times after 1970, and behaviours of the cryptography that satisfy its laws", "why_tests_cant": "all key packages, and all Welcomes that could ever be made from the group; tests found groups with freshly generated packages", "anchors": ["group.go:CreateGroup", "group.go:Group.CreateWelcome", "group.go:GroupFromWelcome", "tree.go:ratchetTree.verifyIntegrity"]}
{"id": "C115", "title": "The private keys of blank nodes are erased", "statement": "After accepting a commit a member holds no private keys of nodes that are blank in the new tree or lie outside it: the key of a node that the commit makes blank is erased.", "quantifier": "all groups obtained through the API, accepted commits, node positions and keys, and all behaviours of the cryptography", "why_tests_cant": "the leftover keys have no effect on any output, and the nodes blanked depend on the history of the group", "anchors": ["group.go:Group.processCommit", "tree.go:ratchetTree.decryptPathSecrets", "tree.go:ratchetTree.apply", "group.go:processPathSecret"]}
{"id": "C116", "title": "Private keys that do not belong to the key package are noticed", "statement": "CreateGroup and GroupFromWelcome return an error if a private key of the key pair package (for example restored from storage and mixed up) does not belong to its public key, instead of returning a group in which the member cannot sign or decrypt.", "quantifier": "all Welcomes, key pair packages, private keys, clock readings, messages, and all behaviours of the cryptography", "why_tests_cant": "tests use the packages that GenerateKeyPairPackage returns, whose keys always belong together", "anchors": ["group.go:GroupFromWelcome", "group.go:groupFromSecrets", "group.go:CreateGroup", "key_package.go:PrivateKeyPackage", "group.go:Group.CreateApplicationMessage"]}
{"id": "C117", "title": "GREASE values are ignored", "statement": "Values reserved by section 13.5 of RFC 9420 (0x0A0A, 0x1A1A, ..., 0xEAEA), wherever they are added to the lists of capabilities or the extensions of a key package or leaf node (and then signed), change nothing: the package is read, accepted or rejected just as without them, the credential types supported by all members stay the same, and a ratchet tree with right signatures and hashes stays acceptable.", "quantifier": "all key packages, leaf nodes, ratchet trees, group contexts and verification options, all places and numbers of GREASE values, and all behaviours of the cryptography", "why_tests_cant": "test vectors and the library itself never use GREASE values, and the places and numbers of them are unlimited", "anchors": ["tree.go:capabilities.unmarshal", "tree.go:leafNode.verify", "tree.go:ratchetTree.supportedCreds", "key_package.go:KeyPackage.verify", "key_package.go:UnmarshalKeyPackage"]}
{"id": "C118", "title": "Members invited together or one after the other find the same tree", "statement": "Proposals of which some are applied before the others anyway (updates before removals before additions) give the same ratchet tree whether they are committed together or in two commits one after the other, and can be applied the one way exactly if they can be applied the other way. Who is added and then removed leaves no trace among the leaves.", "quantifier": "all ratchet trees, all lists of proposals and senders, all members in agreement and all commits they accept, and all behaviours of the cryptography", "why_tests_cant": "the trees, the lists of proposals and the ways to divide them are unlimited, and the test vectors contain no pairs of histories with the same proposals divided differently", "anchors": ["tree.go:ratchetTree.apply", "tree.go:ratchetTree.add", "tree.go:ratchetTree.remove", "tree.go:ratchetTree.update", "group.go:Group.processCommit"]}
{"id": "C119", "title": "Lists with two extensions of the same type are refused", "statement": "A key package, leaf node or group info in which two extensions have the same type is refused: a commit that adds such a member is rejected, and so is a Welcome with two ratchet trees.", "quantifier": "all key packages, leaf nodes, group infos, Welcomes, clock readings, and all behaviours of the cryptography", "why_tests_cant": "the test vectors contain well-formed lists only; that nothing anywhere depends on a repeated extension is about all lists", "anchors": ["tree.go:unmarshalExtensionVec", "tree.go:findExtensionData", "tree.go:leafNode.verify", "key_package.go:KeyPackage.verify", "group.go:groupFromSecrets"]}
{"id": "C120", "title": "Updates and paths bring new encryption keys", "statement": "When a commit is accepted, the encryption keys it replaces are not used again at once: a leaf node that an update or a path puts in the place of another has another encryption key, and the parent nodes on the path have keys that were not in the tree.", "quantifier": "all groups the operations can produce, all commits, all members and proposals", "why_tests_cant": "tests use freshly generated keys; a sender that repeats a key is never tried", "anchors": ["group.go:processCommit", "tree.go:leafNode.verify", "tree.go:ratchetTree.keys", "tree.go:ratchetTree.update"]}
{"id": "C121", "title": "No member can keep others from being invited", "statement": "Whatever the members of a group send, the others accept only commits after which new members can still be invited: if someone could join before a commit, they can after it.", "quantifier": "all groups the operations can produce, all commits and proposals of hostile members, all Welcomes and key packages, all behaviours of the cryptography", "why_tests_cant": "tests do not commit leaf nodes that are not signed; that nobody at all can join afterwards is about all Welcomes", "anchors": ["group.go:processCommit", "tree.go:ratchetTree.update", "tree.go:verifyIntegrity", "group.go:groupFromSecrets", "group.go:Group.CreateWelcome"]}
{"id": "C122", "title": "Members keep their credentials and do not take those of others", "statement": "A member keeps the credential with which it was added: no accepted commit changes the credential at a leaf that it does not remove, and none gives a member the credential of another member.", "quantifier": "all groups the operations can produce, all commits, members and leaf nodes, and all behaviours of the cryptography", "why_tests_cant": "the tests never change a credential; that what it says has no influence at all is about all leaf nodes", "anchors": ["tree.go:leafNode.verify", "group.go:processCommit", "tree.go:ratchetTree.update", "crypto.go:credential"]}
{"id": "C123", "title": "Whoever follows a commit still has its own leaf", "statement": "When a member accepts a commit, the leaf at its index is still its own afterwards: the one it had or one that it signed itself. A member whose leaf is given to somebody else notices that it was removed.", "quantifier": "all groups the operations can produce, all commits of honest and hostile members, all behaviours of the cryptography", "why_tests_cant": "needs a hostile commit that removes a member and adds a key package with that member's encryption key; that there is no other way is about all commits", "anchors": ["group.go:processCommit", "tree.go:ratchetTree.decryptPathSecrets"]}
{"id": "C124", "title": "Receivers learn who sent a message, and know their own messages", "statement": "Whoever calls UnmarshalAndProcessMessage can tell from the result which member sent an application message; in particular a member's own message that is sent back to it is not delivered as that of another member.", "quantifier": "all groups the operations can produce, all members of an epoch, all data and random values, all behaviours of the cryptography that meet the laws", "why_tests_cant": "that two senders give the same result is about all pairs of members and all messages", "anchors": ["group.go:Group.UnmarshalAndProcessMessage", "group.go:Group.processPrivateMessage", "group.go:Group.CreateApplicationMessage"]}
{"id": "C125", "title": "The keys of messages are erased once they are used", "statement": "A member that has read or sent an application message can no longer decrypt it: the key is erased (RFC 9420, section 9.2), so that whoever takes over the member later in the epoch does not learn earlier messages.", "quantifier": "all groups the operations can produce, all messages, all sequences of messages processed afterwards, accepted or rejected, all clocks", "why_tests_cant": "that nothing a member hears makes it forget a key is about all later histories", "anchors": ["group.go:Group.processPrivateMessage", "group.go:Group.encryptPrivateMessage", "secret_tree.go:deriveSecretTree"]}
{"id": "C126", "title": "Proposals that were received are committed before anything else is sent", "statement": "A member who has received proposals does not send application data before they are committed, and commits that it makes carry out the proposals received (RFC 9420, section 12.4): in particular nothing is sent to a member whose removal was proposed, and the proposal is not lost.", "quantifier": "all groups the operations can produce, all proposals received, all members, data and random values, all behaviours of the cryptography that meet the laws", "why_tests_cant": "that no received proposal is ever minded is about all pending lists and all states", "anchors": ["group.go:Group.CreateApplicationMessage", "group.go:Group.CreateWelcome", "group.go:Group.processProposal", "group.go:Group.processCommit"]}
{"id": "C127", "title": "Commits shut out whoever has copied the secrets of an epoch", "statement": "Someone who has copied the shared secrets of a member (epoch secret, init secret, transcript hash, tree), but none of its private keys, cannot follow the group into the next epoch, nor read what is sent there (post-compromise security).", "quantifier": "all groups the operations can produce, all sequences of invitations by members in agreement, all commits with update paths, all behaviours of the cryptography that meet the laws", "why_tests_cant": "that a copy follows through any number of commits, or that no commit with a path can be followed, is about all histories and all messages", "anchors": ["group.go:Group.CreateWelcome", "group.go:Group.processCommit", "tree.go:ratchetTree.decryptPathSecrets"]}
