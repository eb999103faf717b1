# Formal model of cloudflare/cfrpki in Rocq

## Layout

* `rocq/theories/Model/*.v` – executable Gallina model, one file per part of the code. No proofs. Every definition cites the source lines.
* `rocq/theories/Spec/*.v` – small specifications that do not mention the model's helpers.
* `rocq/theories/Proofs/*.v` – lemmas.
* `rocq/theories/Props/*.v` – only the property theorems, each closed by `exact`, each followed by `Print Assumptions`, with non-vacuity examples taken from `Proofs`.

## Method

Go functions become total Gallina functions. Errors and panics are explicit results. Maps are functions with update (`kmap` in `Model/Str.v`). Pointers to resources are heap addresses.
Loops become structural recursion or recursion on fuel; running out of fuel is a distinct result excluded by a sufficiency theorem.
Hash functions, XML tokens, the file system, HTTP and the clock are function arguments (section variables), so each theorem holds for every behaviour of these. So is crypto/x509 in all theorems except C76–C79, which put the octet-level functions of `Model/X509.v` in its place.

## Trusted base

* Coq's kernel (8.16.1) and its virtual machine, used for concrete runs in examples and refutations.
* `Print Assumptions` after every property theorem says "Closed under the global context": no axiom is used, neither of ours nor of the standard library.
* Loading the standard library brings the module type fields `Coq.ssr.ssrunder.Under_rel.*` (`Under_rel`, `Under_relE`, `under_rel_done`, `Under_rel_from_rel`, `Over_rel`, `over_rel`, `over_rel_done`) into the environment; the checker lists them, no theorem depends on them.
* The reading of the Go source that the definitions in `Model/` state, and the statements in `Spec/` and `Props/`.
* The behaviour of the Go standard library where it is written out instead of being a parameter: `net` (IP, IPMask, IPNet, their text forms, `ParseCIDR`; `NetIP.v`, `NetText.v`), `encoding/base64` (`Base64.v`), `encoding/asn1` (`Asn1.v`, and `Der.v` after the copy in the vendored certificate-transparency-go), `time` as far as ASN.1 times need it (`GoTime.v`), `encoding/xml` (`XmlLex.v` the tokenizer, `RrdpXml.v` and `CaXml.v` what is above it, `CaXml.v` writing), `math/big` bytes, `strings`, `strconv`, `path`/`path/filepath` (`Str.v`, `TalText.v`, `Paths.v`, `Output.v`). These follow the published sources, which are not part of /repo.

### Modelled

| Model file | Source |
| --- | --- |
| `NetIP`, `CertRes` | validator/lib/cert.go: IP and AS resources, decoding and encoding of their extension values, containment; `GetRangeIP` |
| `Roa` | validator/lib/roa.go: entries, their conversion, `Validate`, `ValidateIPRoaCertificate` |
| `Ber` | validator/lib/ber.go, all of it |
| `Asn1`, `Cms` | validator/lib/cms.go: decoding of fragments, attributes, signature check with RSA arithmetic |
| `GoTime`, `Der` | encoding/asn1: `Marshal` and `Unmarshal` directed by a description of the Go type (vendored certificate-transparency-go/asn1) |
| `ObjDer` | validator/lib/cert.go (extension values, both directions), roa.go, manifest.go, xml.go, cms.go (`DecodeCMS`, `EncodeCMS`, signing), crl.go (key identifier) as functions on octets |
| `X509` | crypto/x509 as the code uses it: `ParseCertificate`, `CheckSignatureFrom`, `ParseDERCRL`, `CheckCRLSignature` on octets. The library is not part of /repo; the vendored copy of it (vendor/github.com/google/certificate-transparency-go/x509) is cited, and section variables leave open where versions differ and the further reasons to refuse a certificate |
| `Base64`, `Tal`, `TalText`, `TalDer` | validator/lib/tal.go; payload decoder of sync/lib/rrdp.go |
| `Validator` | validator/pki/pki.go:190-745: `Validator` with all its maps, resources in a heap |
| `Explore` | validator/pki/pki.go:131-174, 768-921: the manager; local file reader of sync/lib/fetch.go |
| `Repo` | validator/pki/pki.go, sync/lib/fetch.go: the repository mode of the manager (`Explore(true)`, `GetNextRepository`, `GetRepository`) |
| `FileDecoders` | the decoders called by `AddResource` as functions on octets |
| `Paths`, `Cache` | sync/lib/rsync.go, utils.go, fetch.go (addresses and places); writes of cmd/octorpki/octorpki.go as elementary file operations |
| `Rrdp`, `RrdpXml` | sync/lib/rrdp.go: `FetchRRDP`, `ParseRoot`, `ParseNode`; rrdp_struct.go |
| `Pool` | cmd/octorpki/rrdp_fetcher.go, rsync_fetcher.go: goroutines and channel, all interleavings |
| `Octo` | cmd/octorpki/octorpki.go: rounds of the main loop, `fetchTAL`, stability, serving |
| `Output`, `NetText` | cmd/octorpki/octorpki.go: `generateROAList`, `signROAList`, `ServeROAs`; filter.go; vendored gortr/prefixfile |
| `Patricia`, `Ov` | ov/ov.go; vendored kentik/patricia: address parsing, int64_tree for IPv4 and IPv6 (`Add`, `FindTagsWithFilterAppend`) |
| `Report` | cmd/octorpki/octorpki.go: `generateROAList`, the part for /resources; api/schemas/schemas.go |
| `Info` | cmd/octorpki/octorpki.go: repositories collected by `mainValidation`, `ServeInfo` |
| `Local` | cmd/localrpki/localrpki.go: time of validation, the list |
| `CtPool` | cmd/octorpki/ct.go and cmd/ctrpki: the workers, the order of steps of `main` |
| `SubMap` | sync/lib/utils.go: `AddInMap`, `ReduceMap` |
| `Json` | encoding/json as used: Marshal's text of values and strings, Unmarshal's scanner and unquoting |
| `StateFile` | cmd/octorpki/octorpki.go: `LoadRRDPInfo`, `saveRRDPInfo`, `doRRDP`, `output`, text of `ServeROAs`; tags of gortr's `ROAList` |
| `CrlMake` | validator/lib/crl.go: `CreateCRL` as a function on octets (the name of the issuer is given as octets, the signer is an oracle) |
| `RsyncList` | sync/lib/rsync.go: `FilterMatch`, the report of `RunRsync` (the two regular expressions as string tests, bufio.Scanner with its limit; the program itself is specified in `RsyncSpec`) |
| `ErrReport` | the errors made by ValidateCertificate, AddCert, AddROA, AddManifest, AddResource and what reportError/reportErrorFile send during Explore (pki.go, errors.go); the texts and Sentry scopes are in `ErrText` |
| `ExtMake` | validator/lib/cert.go:666-729 (`EncodeInfoAccess`, `EncodePolicyInformation`), the identifiers and criticality of the other extensions, tal.go:108-127 |
| `Api` | sync/api/fetch.go; the manager on top of it (validator/pki/pki.go: `GetNextFile`, `GetNextRepository`, `Explore`) |
| `RsaPriv` | validator/lib/cms.go: `PrivateEncrypt`; the library's `SignPKCS1v15` that `EncryptSignatureRSA` calls |
| `Shared` | cmd/octorpki: which goroutine accesses which field of `OctoRPKI` under which lock: `mainLoop`, `doRRDP`, `fetchRRDP`, `mainTAL`, `mainRsync`, `mainValidation`, `generateROAList`, `MainReduce`, `ServeROAs`, `ServeResources`, `ServeInfo`, `ServeHealth` |
| `Server` | cmd/octorpki/octorpki.go: the assignments of validationLoop to the flags and the list (1134, 1567-1613), ServeROAs reading them at two moments, output |
| `XmlLex` | the decoder of encoding/xml on octets (strict, no charset reader, no entity map), as used by sync/lib/rrdp.go `ParseRoot`, `ParseNode` |
| `CaXml` | ca/xml.go (all types and functions) on octets, and the encoder of encoding/xml for these types as used by validator/lib/xml.go `EncodeXMLContent` |
| `RrdpHttp` | sync/lib/rrdp.go: `GetXML`, `FetchRRDP` with its errors and the addresses asked; sync/lib/errors.go; cmd/octorpki/octorpki.go: what `fetchRRDP` and `rrdpError` do with the rsync job, `getHTTP` |
| `NetCache` | cmd/octorpki/octorpki.go: what `fetchRRDP`, `fetchTAL` and `fetchRsync` leave in the cache; sync/lib/fetch.go: the reading of a file. rsync itself leaves any files below its directory and nothing else (symbolic links excluded) |
| `ErrText` | the errors with their texts and Sentry tags (errors.go; String methods of cert.go; `logCollector`); the texts of errors of decoders, of crypto/x509 and of `time.Time`, and the text of a nil address, are parameters; stack traces and the extras beside the tags are left out |
| `CacheConc` | the workers of rrdp_fetcher.go writing into the cache together: ioutil.WriteFile as open and calls of write(2), all interleavings and splittings; errors for withdrawals in deltas are ignored as in rrdp.go; os.MkdirAll is one operation per directory, and write(2) itself is atomic |
| `Ct` | cmd/octorpki/octorpki.go: `ct`; ct.go: the requests of `SendCertificateTransparency` |

### Parameters

Section variables, over which every theorem quantifies: verification of X.509 and CRL signatures and the fields that crypto/x509 reads from a certificate or CRL besides the RPKI extensions (both instantiated with `Model/X509.v` in C76–C79), the tokens encoding/xml delivers (written out in `Model/XmlLex.v`, C99, with the tables of characters beyond ASCII that may occur in names and the treatment of names with several colons as parameters), SHA-1, SHA-256, ECDSA, the clock, the content of files and downloads, the order of map iteration where it matters, the interleaving of goroutines.

### Simplifications

* `int`, `int64` and `uint64` are unbounded integers except where wrapping is part of a property (`Rrdp`, `Output`: `uint8`).
* Nil and empty slices are identified; no code in /repo distinguishes them where modelled.
* Log output, tracing, metrics and Sentry reports have no effect and are left out, except in `ErrText`.
* The file system has no symbolic links and fails only where a file is in the way of a directory or the reverse.
* The node array of the prefix tree is a list with an explicit capacity; a write through a pointer into an array that `append` has replaced is a distinct result (`TStale`), excluded by C49.
* In `FileDecoders` the crash of a decoder counts as a failure to decode: the program stops there, and what it did before is a shorter run.
* Memory, stack and time limits of the Go runtime do not exist in the model.

### Not modelled

* sync/api apart from fetch.go, and ca: generated data types and thin command line front ends. The remote calls are functions without a state: one answer per path.
* In ca/xml.go: the contents of a message after an error of `DecodeXML`, which returns it together with the error; white space beyond ASCII around the version.
* The TLS, HTTP and rsync client layers; what the HTTP client answers is a parameter (C101: no response, or a status code, the octets of the body and how it ends).

## Findings

Behaviour of the code that contradicts a property as stated; each is a theorem about the model ending in `_refuted`.

* Validator: the serial index keeps one certificate per issuer and serial, so a reused serial escapes revocation (C04); its key is a concatenation and collides between issuers (C05); a CRL names its issuer by the octets after the fourth of the extension, which misattributes long key identifiers and extensions with further fields (C05).
* Resources: inheritance is resolved one level up only, and an anchor may inherit (C06, C61); IPv4 and IPv4-mapped IPv6 addresses compare equal, and the family of an element is not looked at (C15, C21, C48); AS ranges and inheritance can be mixed (C18); prefixes longer than an address, reversed ranges, overlong range ends and elements with foreign tags are accepted (C16, C20, C68); an IPv4 range is not read back (C19).
* Chain: the trust anchor's own signature is not checked (C07); one ROA or manifest can displace another in the index (C08, C09); a certificate can claim the path of another CA's manifest or objects (C10, C52, C54).
* Certificates: unknown critical extensions are passed over (C76), path lengths are not looked at (C77), revocation lists are accepted from signers that are no authorities and after their next update (C79).
* Submission of chains: octorpki hangs if told to use no workers; ctrpki may end without having submitted the chains its workers had not yet taken, and submits the chains of earlier locators again (C84).
* Grouping of addresses: AddInMap forgets that an address was added if it was on the way to an earlier one (C85).
* The RRDP state file: `null` is read without error and leaves a nil map; addresses that are not Unicode share one entry after a restart (C86).
* C88: `CreateCRL` writes an empty SEQUENCE of entries when nothing is revoked; RFC 5280 (5.1.2.6) wants the field absent. For a certificate without key identifier the list names no issuer.
* C89: `RunRsync` drops the error of its scanner, so a line of 64 KiB ends the report silently; a file named `deleting a.cer` is reported as the deletion of `a.cer`; a source that is a directory without trailing slash would be stored below itself (octorpki only passes modules).
* C90: a revocation list that is not accepted is reported by a nil error that names nothing; a file that is absent from a repository not synchronised is dropped without report (files on manifests have relative names and so always belong here; their CA is reported instead).
* C91: `EncodePolicyInformation` without address writes an empty list of qualifiers, `EncodeInfoAccess` writes addresses outside ASCII; `CheckCertificate` on a locator made by `CreateTAL` crashes.
* The file seeker of the remote interface gives no digest with its files, so `StrictHash` has no effect: neither are the digests of manifests compared nor are expired manifests noticed; when the stream of a repository breaks, what was received is taken for the whole; data that cannot be converted is handed on as empty (C92; nothing in /repo constructs this seeker).
* C93: `PrivateEncrypt` (called nowhere, but offered in a comment as the alternative to `SignPKCS1v15`) drops leading zero octets, so about one result in 256 is no signature by RFC 8017; the validator's own check accepts it.
* C94: `ServeResources` keeps the read lock while it writes to the client, and the server has no time limits: one client of /resources.json that does not read blocks the `Lock` in `generateROAList`, so validation stops for good, and by the rules of `sync.RWMutex` every later request for /resources.json hangs as well.
* C94: data races: `ServeInfo` reads `ROAList`, `ROAsTALsCount`, `LastComputed` and `ValidationDuration` without a lock, `ServeROAs` reads `LastComputed` without one (a `time.Time` is three words); the max-age sent with a list may be that of the next list, which is not served yet.
* A sibling authority that names the location of another authority's revocation list as its own manifest keeps the list from being used: the file is taken once, as a manifest, and certificates on the list stay valid (C96_hidden_refuted). Certificates are valid without any accepted list of their issuer, even when the list on the manifest has a wrong signature (C96_needed_refuted).
* With `-output.wait`, mainValidation publishes its list before the loop decides whether the state is stable. Once a state was stable, the list of a validation that found new, still unfetched repositories is given to clients until the flags are updated (C97_incomplete_refuted). When an authority moves to a new repository its ROAs are missing from such a list. Afterwards requests are refused (C42).
* Key identifiers can be taken (C98_key_taken_refuted): `AddCert` remembers every certificate it is given under its key identifier, before and whether or not it is valid, and refuses a second one. An authority, or whoever can put an object in the repository of one, makes the objects of another below the same locator invalid by publishing earlier an object with the same identifier; its signature need not verify.
* C99: a snapshot that declares an encoding other than UTF-8 (`us-ascii`, `iso-8859-1`) gives no tokens because no `CharsetReader` is set; the error of `Token` is dropped, so the update succeeds empty and session and serial are stored. Repeated attributes and several roots are read.
* C100: `DecodeInner` starts a new decoder, so that name spaces declared on the message are lost: every element inside an ordinary publication message is reported with an empty name space (or with its bare prefix). Attributes are matched by local name, so that a declaration `xmlns:tag='…'` is taken for the tag and `xmlns:version='…'` makes the message unreadable. `Inner` is written without any check: text that closes the element ends the message there. Octets after the message are not looked at.
* C101: a delta that cannot be downloaded or read ends the update with an error; the snapshot is not tried (RFC 8182, section 3.4.1, asks for it), in no later run either as long as the notification lists the delta. The limit for a document is 10^9 octets although its comment says 5Gb; the number of deltas is not limited. The certificate of a TAL is downloaded without a limit. Whether rsync is tried after an error hangs on the text of the error.
* Reports: the beginning of validity of an expired certificate is shown as its end (cert.go `ValidateTime`), AS numbers in the place of routing domain identifiers (cert.go `String`); why a CA is given up is never told, because `InvalidateManifestParent` is always called without an error (C103).
* Concurrent writes: files are written in place, and the domain of a fetch does not belong to one notification file; two fetches with the same domain that have different octets for an address can leave a mixture of both, or zeros, and both succeed (C104).
* Crashes: CRL of an unknown issuer and unknown address families (C14, C17), BER conversion of short inputs (C25), empty SignerInfos without strict checking, manifest content that is converted again after decoding (C67), keys longer than the tree's width (C49), unreadable files and foreign issuers in the certificate transparency mode (C51), names in RRDP documents that are both file and directory (C56).
* CMS: the padding of signatures is not checked (C27); long attribute sets are hashed wrongly (C55); BER conversion loses empty indefinite-length values (C53) and can grow exponentially (C26); the content type is never compared (C65); objects that EncodeCMS creates fail the library's strict check (C66).
* TAL: keys of some lengths cannot be read back after being written, among them all RSA keys of 3072 and 4096 bits with exponent 65537 (C29); two TALs may get the same name (C30).
* RRDP and rsync: serials wrap around (C31); a server that goes back is ignored, withdrawal errors are dropped (C32); a session change after an interruption leaves files (C33); withdrawn and unlisted files stay (C34); directories are created outside the cache (C36, C57); hosts are compared by substring (C37); paths with the scheme twice are not found (C38); two modules of one server (C39) and one module of two servers (C58) disturb each other; the rsync fallback for a root certificate treats a file as a directory (C60); hashes of RRDP documents are never compared, a document without the expected element counts as an empty update, kind, session and serial of a document are not looked at (C69).
* Output: the limit of iterations serves or ends without a complete result (C42, C43, C59); counts are taken before filters (C46); the entity tag covers second and count only (C47); AS numbers beyond 32 bits are exported and read as AS 0 (C62, C48); the report on valid objects shows times after 2262 and large AS numbers as others, keeps the manifests of invalidated CAs, and generating it crashes if a file is gone (C75); the information page can show a notification address that is no longer used, or one named below another locator (C81).
* Repository mode: the directory read has the name of the rsync address, so nothing below the trust anchors is found; digests on manifests have no effect (C80).
* localrpki: manifests are compared with the clock instead of the time given, and a time that cannot be read gives an empty list (C82); the place of an address depends on the order of a map if keys overlap (C83).
* Decoders: negative AS numbers, reversed AS ranges and trailing octets of manifests are accepted (C71); the length around SignedData is not looked at (C72).

Not stated as theorems: rsync is run with `-l` and copies symbolic links; saving the RRDP state is not atomic; `os.IsNotExist` is asked about a wrapped error and never answers true; a CRL with a bad signature is reported as a nil error.

## Plan per property

* **C01 Every valid object has a complete chain of trust** – Validator as a heap machine (`Model/Validator.v`): every map of `Validator` is a finite map from byte strings to heap addresses, resources live in a heap. Ops = API calls. Invariant by induction over op lists; chain given by an inductive predicate in `Spec`.

* **C02 Invalidation removes the whole subtree and nothing else** – Same model; work-list loop with fuel, fuel sufficiency proved; removed set proved equal to an inductively defined descendant closure.

* **C03 Invalidation is permanent** – History invariant on top of C01/C02.

* **C04 A revoked certificate is never valid, in either arrival order** – History invariant; the code's serial index keeps one certificate per key, so a refutation for reused serials is expected beside the proof for unique serials.

* **C05 A CRL only affects certificates of its own issuer** – Decimal rendering of serials is modelled so that the concatenated key can collide; expected: refuted in general, proved when key identifiers have equal length.

* **C06 A valid certificate claims only resources its ancestors hold** – Containment stated on numeric intervals. Expected: refuted (two levels of inherit, nil masks, IPv4-mapped IPv6), proved for chains without nested inherit.

* **C07 Trust anchors are bound to their TAL** – AddResource for TYPE_CER; CheckCertificate modelled on (algorithm, modulus, exponent). Self-signature part expected refuted.

* **C08 First object wins on key identifier conflict** – Frame theorem for the conflict branch of AddCert, AddROA, AddManifest.

* **C09 The validity indexes agree with each other** – Invariant over op lists.

* **C10 A missing or altered manifest entry discards the whole CA** – Explore modelled as a queue machine over an oracle FileSeeker; invariant relating processed entries to invalid CAs.

* **C11 An expired or not yet valid manifest discards the CA** – Same machine with a clock oracle.

* **C12 Exploration terminates and processes every path at most once** – Termination measure and NoDup of processed computed paths.

* **C13 No object enters validation with a hash other than its manifest hash** – Event trace of the explore machine.

* **C14 Malformed repository content never crashes the validator** – Panics are explicit results in the model. Refutations by witness, plus a no-panic theorem under a boolean well-formedness test.

* **C15 IP membership is interval membership** – net.IP/IPMask/IPNet as byte lists; numeric value of big-endian bytes; proof for all lengths.

* **C16 Decoded prefixes and bounds denote the right addresses** – Same; first/last address as value and value + 2^(w-len) - 1.

* **C17 Resource checking classifies every element exactly once** – Permutation statement over lists.

* **C18 AS number containment is interval containment** – Z intervals.

* **C19 IP resource extension round trip** – Structure-level model of the ASN.1 choice tree (octets: C64).

* **C20 ROA entry well-formedness** – Boolean Validate characterised by inequalities.

* **C21 Only prefixes covered by the ROA's own certificate are emitted** – Containment of [first,last] of each entry in one resource; malformed masks expected to break it.

* **C22 ROA entries round trip** – Structure-level round trip (octets: C64).

* **C23 BER conversion terminates with a definite-length encoding** – readObject as fuelled recursion on the byte list, three outcomes (object, error, panic); fuel sufficiency proved.

* **C24 BER conversion leaves DER unchanged and is idempotent** – Tree type for DER values, encoder, round trip by mutual induction.

* **C25 BER conversion reports errors instead of panicking** – Expected refuted; exact class of panics or a partial theorem.

* **C26 BER conversion output is not larger than its input by more than a constant factor** – Expected refuted by a family of inputs indexed by n.

* **C27 CMS signatures bind content and attributes** – RSAPublicDecrypt on Z arithmetic; hash and ASN.1 parsing as oracles; expected partially refuted (padding).

* **C28 Fragmented content is reassembled exactly** – List concatenation over a TLV model.

* **C29 TAL text round trip** – Line parser, base64 and the ASN.1 of the key modelled on bytes (`TalText.v`, `Base64.v`, `TalDer.v`); expected: proved when key length is a multiple of 3, refuted otherwise, with the lengths of the usual key sizes worked out; what is accepted described by a grammar (`Spec/TalSpec.v`).

* **C30 TAL URI selection** – List search.

* **C31 RRDP deltas are applied gap-free and in order** – FetchRRDP as a function of oracles for downloads and callbacks, producing a trace.

* **C32 RRDP state advances only on complete success** – Same.

* **C33 Retrying after a crash or failure converges** – Cache as finite map; crash = prefix of the trace; replay lemma.

* **C34 A withdrawn file disappears** – Expected refuted (withdraw writes an empty file).

* **C35 RRDP payload decoding is exact** – base64 model shared with C29.

* **C36 Repository data is written only inside the cache** – path/filepath Clean/Join modelled lexically; confinement of files proved, of directories expected refuted.

* **C37 An RRDP server can only write files of its own rsync host** – Expected refuted (substring instead of prefix test).

* **C38 A file is read where it was written** – String rewriting model; proved when the scheme occurs once, refuted otherwise.

* **C39 RRDP failure falls back to rsync and success does not** – Job map machine with arbitrary order of completions.

* **C40 The fetch worker pool processes every job exactly once** – Goroutines and an unbuffered channel as a transition system; invariants, progress and measure.

* **C41 An RRDP address stays bound to its first rsync host** – Invariant over histories of certificates.

* **C42 No output is served before the first complete validation and output stays available afterwards** – State machine of validationLoop; 'stays available' expected refuted.

* **C43 The validation loop reaches a stable state** – Same machine.

* **C44 Duplicate removal keeps one entry per distinct VRP** – List theorem.

* **C45 Prefix length filter** – List theorem.

* **C46 Exported ROA count matches the exported list** – Expected refuted.

* **C47 A client is told 'not modified' only if the list is unchanged** – Expected refuted.

* **C48 Origin validation implements RFC 6811** – ov.go on top of C49.

* **C49 The prefix tree never panics and finds exactly the covering prefixes** – Array based tree of the vendored library with explicit panics; abstraction to an inductive trie; invariants over insertion lists.

* **C50 Signed output does not depend on the order of entries** – Sorting lemma.

* **C51 Certificate transparency chains are complete and finite** – Loop with skiDone as fuelled recursion.

* **C52 A manifest is honoured only for the CA that issued it** – Expected refuted; what holds: its issuer is some CA with a chain.

* **C53 BER conversion preserves the encoded value** – Relation between a value tree and its BER encodings (`Spec/BerSpec.v`), proof by induction on it; empty indefinite-length values are expected to break it.

* **C54 A certificate cannot suppress another CA's objects** – Explore machine; expected refuted; what holds: only by naming the very URI, from the invariant on where files come from.

* **C55 Correctly signed objects are accepted** – PKCS#1 blocks specified as octets (`Spec/CmsSpec.v`); the code strips two octets of the encoded attribute sequence, which is wrong for long attribute sets.

* **C56 No address served over RRDP ends the validator** – Verdict `VFatal` of the write operations; expected refuted.

* **C57 An rsync repository is downloaded only into the directory of its own host** – Place computation on the path model; expected refuted for `..`.

* **C58 RRDP state of one server is not influenced by another server** – Rounds of the main loop (`Model/Octo.v`) over the pool model; expected refuted, RRDPInfo is keyed by rsync module.

* **C59 One-off mode ends and writes its output** – Machine of validationLoop with a trace; the maximum of iterations is expected to end it without output.

* **C60 A root certificate fetched over HTTP or by the rsync fallback becomes available** – fetchTAL on the cache model; fallback expected refuted (rsync is given the file's place as a directory).

* **C61 Every exported authorisation is backed by a chain of certificates holding its addresses** – Composition of the validator invariants (C01, C06), C21 and the export; expected refuted through nested inheritance.

* **C62 A consumer reads back what the ROA says** – `net.IPNet.String` and `net.ParseCIDR` written out, round trip; AS numbers beyond 32 bits are expected to break it.

* **C63 Consumers judge routes only by valid ROAs** – composition of C61, C62 and C48; AS 0 and unreadable AS numbers coincide.

* **C64 Extensions and contents survive encoding to octets** – `encoding/asn1` modelled from the vendored copy as a pair of functions directed by a description of the Go type (`Model/Der.v`). One generic lemma: a well-formed value of any type, once written, is read back, by induction on the type. Then each struct of cert.go, roa.go and manifest.go is an instance, composed with the structure-level results C19 and C22.

* **C65 A signed object is used only as the type it declares** – the decoders never look at the content type; expected refuted: replacing it changes nothing.

* **C66 Objects the library creates are accepted by the library** – composition of the encoders with the decoders; RSA signing is a function whose output verifies. Expected to hold without the strict check and to fail with it: the object says rsaEncryption, the certificate sha256WithRSAEncryption.

* **C67 No byte string crashes the decoders** – panics are explicit in `Model/ObjDer.v`; expected refuted (BER2DER, empty SignerInfos, unknown address family in a certificate). What holds: with strict checking and known families DecodeROA returns.

* **C68 Decoded resources denote the encoded addresses** – the bit string parser establishes the hypothesis `wf_bits` of C16; then every element decoded from any octets is classified. Prefix lengths beyond the address size and unknown families are the expected exceptions.

* **C69 Only complete RRDP documents update the cache** – documents as trees, their tokens, and lists cut off inside an element (`Spec/XmlSpec.v`); readers modelled on tokens with fuel. Expected refuted where no element of the right name exists: such a document counts as an empty one.

* **C70 Times mean what is written** – the texts of UTCTime and GeneralizedTime and the calendar as a separate specification (`Spec/TimeSpec.v`: days counted year by year, month by month); the parsers and the day arithmetic of `Model/GoTime.v` agree with it in both directions.

* **C71 AS resources, access locations and manifest contents are read as written** – grammars in `Spec/ContentSpec.v`, inversion of the generic parser field by field, as for C68. Leniencies expected: negative numbers, reversed ranges, ignored elements, either form of time, any string type, trailing octets.

* **C72 Signed objects are read as written and the signature covers what is used** – grammar of ContentInfo, SignedData, SignerInfo and attributes in `Spec/SignedSpec.v`; inversion of `decode_cms`; composition with C27, C68 and C71. The length of the wrapper around SignedData is not compared with its contents (refuted).

* **C73 Every exported authorisation is written in a signed file in the cache** – the decoders of the manager replaced by the ones on octets (`Model/FileDecoders.v`); invariant of the exploration that ties every object to the file it was read from and every file to the manifest, certificate or locator that named it; composition with C29, C72 and C61.

* **C74 The addresses of an exported entry are bits of a ROA and held by its chain** – composition of C73 with C68 and C61; needs well-formed resources and no nested inheritance, as C61.

* **C75 The report lists exactly the valid objects, as they are in the cache** – invariant of the exploration: every resource in the state knows the file it was read from and what that file decodes to (`Proofs/ReportInv.v`); then the three loops of generateROAList over maps in any order. Expected refuted: times beyond the range of nanoseconds, AS numbers beyond 32 bits, files removed since, manifests of invalidated CAs.

* **C76 Contents of a certificate** – x509.ParseCertificate is modelled on octets (`Model/X509.v`). A grammar of certificates (`Spec/X509Spec.v`) that does not use the decoder; every accepted string is a sentence of it, and serial number, window, key identifiers, addresses, AS numbers, access locations and key are those written there (`certificate_read`). Proof: inversion of the reflective decoder, field by field (`Proofs/X509Bytes.v`, `X509Proofs.v`). Expected refuted: unknown critical extensions are refused.

* **C77 Issuing** – when CheckSignatureFrom accepts, the parent's octets say it is an authority, its key usage (if any) allows signing certificates, and the signature is a PKCS #1 v1.5 signature with SHA-256 over the child's TBS octets under the parent's RSA key. Other algorithms are a section variable. Expected refuted: the path length is respected.

* **C78 Octet chain of an exported entry** – C73 with certificates as octets: the ROA is a signed object in the cache, the certificate inside it is linked by `certified` to the certificate with the key of the locator. No decoder occurs in the conclusion. Proof: every valid certificate is in a file looked at (`Provenance`), then induction on the chain.

* **C79 Revocation lists** – the same for ParseDERCRL and CheckCRLSignature. Expected refuted: the window of a list is looked at; the signer must be an authority.

* **C80 Repository mode** – `Model/Repo.v`; directory listings are a function argument. An invariant lighter than that of C10–C13 (`Proofs/RepoProofs.v`): the validator state is that of a run on the files handed over, anchors come from locators. Termination by a measure: files still to be named behind paths and directories not yet marked as explored. Expected refuted: ReadDir is given the rsync address, so nothing is found; digests are not compared for files of a directory, and the discarding of the CA looks for a certificate where a manifest stands.

* **C81 Repositories on the information page** – `Model/Info.v`; Go slices with explicit backing arrays and a map from modules to pointers into them, so that a write through a pointer left behind by append is visible as lost. Growth of append is an argument. Invariant: the map knows exactly the modules shown, and each pointer is into some array that held the module at that index. Expected refuted: the latest address is shown.

* **C82 The list made by localrpki** – `Model/Local.v`. PathOfResource is the inverse of the model's ResourceOfPath; invariant of the exploration that every valid ROA is registered under the file it was read from and under no other (`Proofs/LocalInv.v`), hence no nil dereference. Entries by coverage as in C21. Expected refuted: validation at a past time.

* **C83 Mapping of addresses to directories** – `parse_map_dir` and `get_local_path` of `Model/Paths.v`; the specification speaks of pieces between commas and the last piece for a key. Order of iteration: any permutation. Expected refuted: overlapping keys.

* **C84 Submission of chains by workers** – `Model/CtPool.v`: transition systems for main and the workers; channels as rendezvous or bounded queues. Conservation of chains is a permutation invariant; termination by a cost that every step lowers; absence of deadlock by cases on an invariant that says which workers have returned. Expected refuted: ctrpki submits all, since quitting competes with taking.

* **C85 Grouping of rsync addresses** – `Model/SubMap.v`: the tree as nested entry lists, the order of iteration an argument per step. The entry at a path is characterised from the list of addresses (first one through it, components after it), the result by the entries at which the walk stops. Expected refuted: coverage.

* **C86 The file of the RRDP state** – `Model/Json.v`, `Model/StateFile.v`: encoder and reader over octets; the grammar of RFC 8259 is a separate inductive specification. Writing lands in the grammar, reading accepts all of the grammar, and reading on: a text that was read is read the same when more follows, so no strict prefix of a saved file is a document. The converse of reading (`Proofs/JsonSound.v`): what is accepted is a document up to bytes that are not UTF-8 and halves of pairs, and a file read without error means exactly the state that is loaded (`means_state`). For texts of any bytes, `replaced` says what is written for them. Expected refuted: texts that are not Unicode kept apart, `null`.

* **C87 The list of ROAs as text** – the same encoder; the members are stated by name against the grammar, uniqueness follows from the reader being complete for the grammar. Lists with any bytes: the same for the list with the bytes replaced that are not UTF-8 (`C87_any_list`).

* **C88 Revocation lists that are made** – `Model/CrlMake.v`: the values handed to asn1.Marshal, with the encoder of `Der`. Round trip by the generic theorem on fields, the difference between the written and the read structure (optional list, raw contents) by lemmas on single fields. The octets fall under the grammar of C79, the key under `names_issuer` of C05, and acceptance needs the converse of the signature theorem: a PKCS #1 signature passes the check. Then C04 applies. Expected refuted: the form of lists without entries.

* **C89 The report of rsync** – `Model/RsyncList.v`: lines as bufio.Scanner gives them, the tests of the regular expressions, the prefix. The specification says what is printed relative to what, by cases on the source. The place follows from C38. Expected refuted: the uses of the prefix that octorpki does not make.
* **C90 What exploration gives up is reported** – The iteration of `Explore` with the reports as a second result; equal to it when they are dropped. A case analysis of one iteration, then the exploration invariant (each path once, registrations stay) for whole runs. Reasons: the error of `ValidateCertificate` by cases, with the validator invariant for the issuer.
* **C91 Extensions and key identifiers that are made** – `Model/ExtMake.v` on the encoder of `Der`; the form against a grammar of values (`coded`), reading back by the theorems of C64, a whole certificate by induction over its extensions. UTF-8 is related to the characters of `JsonSpec`. Expected refuted: empty lists, addresses outside ASCII, locators that were made.
* **C92 Exploration over the remote interface** – `Model/Api.v`: the seeker with its missing digest, and the iteration of `Explore` in both modes. By manifests: equality of the two functions with the cache that the interface amounts to (`served`), from the invariant that no file found later has the path of an initial one. By repositories: the invariant of C80, made generic in what is given to the validator (`Proofs/GivenInv.v`). Expected refuted: the strict setting, broken streams.
* **C93 The private operation of RSA** – `Model/RsaPriv.v`: PrivateEncrypt with and without the values for the Chinese remainder theorem, SignPKCS1v15 with its blinding. Fermat's little theorem by permuting the residues (`Proofs/Fermat.v`), then equality modulo each prime; the loop over further primes by induction with the product of the primes before. Composed with C66 and C88, whose hypothesis about the signer it discharges. Expected refuted: the length of what PrivateEncrypt returns.
* **C94 Data shared between goroutines** – `Model/Shared.v`: each goroutine of server mode as the list of its accesses and lock operations, every choice made by data left open; a machine that interleaves them with the rules of `sync.RWMutex` (a waiting writer keeps readers out). A static discipline on the lists (what is held at each access) is preserved by every step and excludes races on guarded data; a weight that falls with every step and a proof that some goroutine can step give progress. That the loop waits for workers (C94_waits) is a reading of its list with a flag for running workers, kept by every step. The refutations are schedules, and an invariant for "never".
* **C95 What a consumer is told** – No new model. The hypothesis `decoded_state` of C45 and C61–C63 is discharged from octets: resources come from the decoder of address blocks, and an accepted certificate cannot have a prefix without address because the check would have crashed. Then C63 and C78 are composed, with C87 for the text: prefixes and numbers are ASCII, so that replacing bytes that are not UTF-8 leaves them as they are.
* **C96 Revocation published in the cache** – No new model. An exploration is split at the moment a file is taken; a file with a good copy is handed to the validator then, so that its list is applied if its issuer is valid, which follows from being valid at the end and known at that moment (C03). What it lists is removed and marked (C04), and marked certificates are never accepted later. Composed with the export (C78) and with lists that the library makes (C88). Expected refuted: that being on the issuer's manifest is enough (another authority can claim the location first), and that certificates need a list at all.
* **C97 Clients of the server** – `Model/Server.v`: the trace of the loop of C42 with the lists its validations make; a request reads flags and list at two moments of it; a client is a sequence of requests that present the tag held. The list after any prefix of the trace is that of the last validation in it (induction on the trace); the tag determines the second of generation (C47), so that lists of different seconds are told apart; C95 is applied to the cache of the validation the list is from. Expected refuted: that waiting servers give only lists of complete explorations, that clients are never left with old lists.
* **C98 What a correctly run authority publishes** – No new model. `Spec/HonestSpec.v` says what being in order means, by induction along the chain of files. Everything the validator knows or marks comes from files looked at (`Proofs/HonestBase.v`); an invalidation reaches only what is below its key, so that by the conditions nothing in order is reached (the manifest of a file in order is complete and current whenever one of its entries is taken). Then by induction on the exploration every file in order that was taken is valid. Expected refuted: the same without the condition on key identifiers.
* **C99 RRDP documents as octets** – `Model/XmlLex.v` is the tokenizer of encoding/xml on octets. `Spec/XmlTextSpec.v` is the grammar of XML 1.0 without document types, with what characters, references and line ends stand for, as inductive relations. Both directions for every production (`XmlLexBase`, `XmlLexTok`, `XmlLexTag`, `XmlLexDoc`), then by induction on the content for texts and on the length of the input for arbitrary octets (`XmlLexThm`); the tokens of any octets extend to those of a forest, and an end tag that matches determines where it is, so that a text cut off inside its element is not closed before the cut (`XmlLexRrdp`). Composed with C69. Expected refuted: documents in other encodings, well-formedness.
* **C100 Messages of the publication and setup protocols** – `Model/CaXml.v` on the tokenizer of C99. `Spec/CaXmlSpec.v` says what a message is (first element, name and name space by its own declarations, attributes by local name, integers as text) and what the elements inside are. Equivalence of decoding and specification, both directions, from the theorems of C99 on where an element ends; then the encoder's text is shown to be such a message. Expected refuted: name spaces from outside, prefixes taken for attributes, an inside that is not well formed.
* **C101 What a failed or oversized download leads to** – `Model/RrdpHttp.v`: FetchRRDP again, with the answers of the HTTP client, the errors it returns and a record of the addresses asked. Dropping the errors gives the model of C99 (induction on elements and deltas); an invariant says that everything asked arrived completely, except the last one if the error comes from there; the other texts begin with another letter than the text octorpki compares with. The decision on the rsync job is then that of the pool in C39. Expected refuted: the snapshot after a failed delta, a limit on certificates of TALs.
* **C102 From downloads to the verdict** – `Model/NetCache.v` runs any list of sources (RRDP updates on octets as in C101, certificates of TALs over HTTP, runs of rsync) one after the other on the file system of C35. `Spec/NetCacheSpec.v` says when a source delivers octets for a place. By induction on elements, deltas and sources, every file was there before or was delivered; for updates without error the converse, from the events of C31 and the fact that a later write elsewhere does not change a file. Composed with C95: the ROA behind an answer was delivered by a source.
* **C103 What the reports say** – `Model/ErrText.v` makes the errors themselves where `Model/ErrReport.v` has only their types. Forgetting the rest gives C90's model (induction on the steps); the same induction carries an invariant listing the shapes an error can have, from which the texts and tags follow by cases. `Spec/ErrTextSpec.v` says what the tags must be and what a list of resources looks like. Expected refuted: the end of validity, routing domain identifiers, the reason for giving up a CA.
* **C104 Concurrent writes** – `Model/CacheConc.v`: each fetch is a process whose steps are system calls on the file system of C34; the schedule is a list of process numbers and lengths of writes. One step seen at one place has seven cases; invariants on top: octets with their positions, the writer's progress for a place with one writer, and for equal octets that every octet is right or some writer is yet to write it. Run alone, a process does what `Cache` says. Hosts: the place an address leads to has the host of the domain first, or a component ending in `rsync:`; so one fetch for each host gives files with one writer. Reading: with C38, the place the validator reads for an address is the place that was written. Accepted: an operation that stops a fetch stays before it, so that it is in none that ended well. Ends: the octets and operations left are a measure for each process. Success: files and directories stay apart, an invariant for any two disjoint sets of places. Expected refuted: files that are never mixtures.
