{
"C01": {"status": "proved", "note": "For every operation list; signature verification and the decoders are arbitrary functions."},
"C02": {"status": "proved", "note": "Exact effect on the three validity maps, and that what is below was issued by the key. Manifests are kept (see C09)."},
"C03": {"status": "proved", "note": "For every later operation list."},
"C04": {"status": "partial", "note": "CRL first: proved. Certificate first: proved when key identifiers have one length and serials are unique per issuer; serial reuse is a counterexample (_refuted). Trust anchors are exempt."},
"C05": {"status": "partial", "note": "What a CRL removes is proved to be below a listed certificate of its issuer, and the issuer to be the key identifier in its octets for short keys and no further fields. Later rejections: proved for key identifiers of the same length; the index key is a concatenation and collides otherwise (_refuted)."},
"C06": {"status": "partial", "note": "Containment one level up, or two through an inheriting issuer; two inheriting issuers in a row or an inheriting anchor are counterexamples (_refuted). IPv4-mapped bounds excluded (see C15)."},
"C07": {"status": "partial", "note": "Key binding and origin of trust proved, also end to end through exploration (C01_explored_chain_to_tal); the self-signature of an anchor is never verified (_refuted)."},
"C08": {"status": "partial", "note": "Stored objects and validity maps never change on a conflict, and the caller is told; the all-ROAs index is overwritten (_refuted)."},
"C09": {"status": "partial", "note": "Agreement of the indexes proved, except that valid manifests keep entries whose certificate was invalidated (_refuted)."},
"C10": {"status": "partial", "note": "Proved for every entry that is looked at as an entry of that manifest, for all caches and orders. A path named first by another object is looked at only there, so the digest goes unchecked (_refuted)."},
"C100": {"status": "partial", "note": "Decoding is proved equivalent to the specification for all octets, all message types and all tables of name characters; DecodeInner returns for all octets; written messages are read back for values of allowed characters and a well-formed inside. Name spaces declared on the message, prefixes named like attributes, an inside that closes the message and octets that are no text are _refuted. Missing: the message that DecodeXML returns along with an error; white space beyond ASCII around the version."},
"C101": {"status": "partial", "note": "All parts for all limits, answers, documents, callbacks and stored states, with the error texts of the callback and of bodies that break off assumed to differ from net/http's text for large bodies (proved for octorpki's callback). The addresses asked are stated for stored serials below 2^63-1 and notifications with serials of 64 bits (_partial). A snapshot after a failed delta and a limit for certificates of TALs are _refuted. Missing: answers that change during an update, redirects."},
"C102": {"status": "partial", "note": "Origin of every file: for all sequences of RRDP updates, TAL downloads and rsync runs, all answers, errors and starting states. That published elements are read: for updates from a snapshot or from deltas that end without error, stored serials below 2^63-1, addresses without a second rsync:// and whose place no later element has (_partial). What a consumer is told: below plain anchors, as in C95 (_partial). rsync is assumed to write only below the directory it is given. Missing: updates that run at the same time, links copied by rsync."},
"C103": {"status": "partial", "note": "C103_reports, _told, _text_names, _own_certificate, _digest, _conflict, _names, _resources and _early hold in full. Three parts are false for this code: C103_end_refuted (the beginning of validity is printed as its end), C103_rdi_refuted (AS numbers are printed in the place of routing domain identifiers), C103_reason_refuted (an altered file and a manifest out of date give the same report)."},
"C104": {"status": "partial", "note": "C104_alone, _others, _same, _last, _read, _accepted, _any_order, _moments, _octets, _ends, _success, _fatal, _stays, _hosts and _hosts_end hold in full. One part is false for this code: C104_whole_refuted (two fetches bound to the same host with different octets for one address can leave a mixture, although both succeed)."},
"C11": {"status": "proved", "note": "With strict manifests and hashes (the defaults), for every listed file met and every clock."},
"C12": {"status": "proved", "note": "All finite caches; cycles included. The bound is the number of files that the cached files can name."},
"C13": {"status": "proved", "note": "The validator state is that of a run on files with matching digests; SHA-256 is an arbitrary function."},
"C14": {"status": "partial", "note": "Termination proved for all inputs; absence of panics under stated conditions on objects, with counterexamples outside them (_refuted)."},
"C15": {"status": "partial", "note": "Proved for every element and address that is not an IPv4-mapped IPv6 address; the full statement is false there (two _refuted theorems)."},
"C16": {"status": "partial", "note": "Proved for every bit string that fits its family; longer ones are accepted with an empty mask (_refuted)."},
"C17": {"status": "partial", "note": "The partition holds for all lists; the meaning of the parts holds unless a bound of a claim is an IPv4-mapped address or an element has an unknown family (_refuted)."},
"C18": {"status": "partial", "note": "Proved for all lists; when an inherit element is mixed with ranges the answer depends on the order (_refuted)."},
"C19": {"status": "partial", "note": "Proved for prefixes, IPv6 ranges, inherit markers and AS lists; encoding an IPv4 range panics (_refuted)."},
"C20": {"status": "partial", "note": "Proved for every prefix that fits its family; an overlong bit string passes the check (_refuted)."},
"C21": {"status": "partial", "note": "Proved for well-formed certificates and entries; false for malformed encodings and for IPv4-mapped certificate prefixes (_refuted)."},
"C22": {"status": "proved", "note": "All lists of entries without host bits, max length >= 0. The DER layer (encoding/asn1) is outside the model."},
"C23": {"status": "proved", "note": "All byte strings; sizes below 2^63."},
"C24": {"status": "proved", "note": "All DER values below 2^31 bytes (the code rejects longer length fields)."},
"C25": {"status": "partial", "note": "False: truncated inputs panic (_refuted). Proved for every input starting with a complete BER value."},
"C26": {"status": "partial", "note": "False: output can be exponential in the input (_refuted). Proved for every complete BER value (factor 2)."},
"C27": {"status": "partial", "note": "What is accepted is characterised exactly; padding, algorithm and trailing octets are not checked, so for exponent 3 signatures can be forged for any content (_refuted, for every modulus above 2^1400)."},
"C28": {"status": "proved", "note": "All fragment lists with DER lengths below 2^31, both directions, and termination."},
"C29": {"status": "partial", "note": "Proved, down to the octets of the key, for key encodings whose length is a multiple of three (with exponent 65537: moduli of 1024 and 2048 bits); all others (3072 and 4096 bits among them) cannot be read back, and writing a TAL that was read panics (_refuted). Every accepted TAL is described by a grammar. URIs are those that the text form can carry (Spec/TalSpec.v)."},
"C30": {"status": "partial", "note": "Proved, except that a TAL may name the made-up place of another one itself (_refuted)."},
"C31": {"status": "partial", "note": "Proved for every notification with fewer than 2^62 deltas and every stored serial below 2^63-1, where the loop wraps around (_refuted). An announced serial of 2^63-1 always leads to the snapshot. Documents are given already parsed; digests are not checked by the code."},
"C32": {"status": "partial", "note": "Proved, except that a lower serial of the same session is accepted without effect and that errors for withdrawals in deltas are dropped (_refuted)."},
"C33": {"status": "partial", "note": "Proved for any number of interruptions at any elementary file operation, also when the server has moved on within the session; false when the session changes in between (_refuted)."},
"C34": {"status": "partial", "note": "False: withdrawals leave empty files and snapshots keep unlisted ones (_refuted). Proved: the last element delivered for a place decides its content (C34_content_replaced; for withdrawals in deltas, whose errors are ignored, a directory may be in the place, C34_content_replaced_partial)."},
"C35": {"status": "proved", "note": "Exact in both directions for blanks and line ends; text with tabs is refused. Unused trailing bits are not checked, as in Go's decoder."},
"C36": {"status": "partial", "note": "Proved for files, and for directories of accepted addresses, in a file system without symbolic links; refused addresses make directories outside (_refuted)."},
"C37": {"status": "partial", "note": "Proved up to the case of an address containing the domain's text further on; there, and for host \".\", other hosts' directories are written (_refuted)."},
"C38": {"status": "partial", "note": "Proved for addresses with one occurrence of rsync:// and a non-empty cache path; false otherwise (_refuted)."},
"C39": {"status": "partial", "note": "Proved for the addresses as they are bound to modules, for all schedules; with two modules behind one address the first keeps its rsync job (_refuted)."},
"C40": {"status": "proved", "note": "For any job whose steps can always continue and are finitely many; shown for the RRDP jobs. With no worker the pool is stuck (stated)."},
"C41": {"status": "proved", "note": "Over all sequences of rounds, certificates, fetch results and schedules."},
"C42": {"status": "partial", "note": "'Refused before' proved, counting the maximum of iterations as stable; 'served from then on' is false (_refuted), proved while validations find nothing new."},
"C43": {"status": "partial", "note": "Proved with the bound max+1; the bound max is false (_refuted)."},
"C44": {"status": "partial", "note": "Proved for all lists whose AS texts contain no slash, hence for every generated list; false for arbitrary texts (_refuted)."},
"C45": {"status": "partial", "note": "Proved for all lists of readable prefixes; panics exactly on others. Generation never panics for decoded objects below well-formed trust anchors; below a malformed one it does (_refuted)."},
"C46": {"status": "partial", "note": "False: counted before the filters (_refuted). Proved: equal exactly when nothing was dropped."},
"C47": {"status": "partial", "note": "False: the tag covers second and count only (_refuted). Proved: it determines these for a hash without collisions."},
"C48": {"status": "partial", "note": "Proved for payloads and routes with contiguous masks and without IPv4-mapped addresses, fewer than 2^31-1 payloads; false for mapped prefixes and non-contiguous masks, and AS 0 matches (_refuted)."},
"C49": {"status": "partial", "note": "Proved for both families, fewer than 2^31-1 insertions of keys whose length fits the family; a longer IPv4 key is not found again (_refuted)."},
"C50": {"status": "proved", "note": "All permutations, any key pair whose signatures verify; moreover an accepted list has the signed authorisations and times. Trust anchor names and the count are not covered (stated)."},
"C51": {"status": "partial", "note": "Termination, absence of panics and issuer links while building chains proved for all states; reaching a trust anchor needs non-empty key identifiers and trust anchors without foreign issuer; otherwise a nil file is submitted and panics (_refuted)."},
"C52": {"status": "partial", "note": "The property is false as stated: the manifest of one CA is honoured for another (_refuted). Proved: an accepted manifest is signed inside its window by an unrevoked certificate of some CA with a chain to a trust anchor."},
"C53": {"status": "partial", "note": "Proved for all BER values below 2^47 bytes without empty indefinite-length values; those are misread (_refuted)."},
"C54": {"status": "partial", "note": "The property is false as stated: a CA can name another CA's file and so suppress it (_refuted). Proved: that is the only way; an entry of an accepted manifest is looked at exactly once, and as an entry of that manifest unless another accepted object or a starting file names its URI."},
"C55": {"status": "partial", "note": "Proved for signed attributes whose encoding is shorter than 128 octets; longer ones are refused (_refuted)."},
"C56": {"status": "partial", "note": "False: two kinds of addresses end the process (_refuted). Proved for addresses with the scheme when no file is in the way."},
"C57": {"status": "partial", "note": "Proved for hosts and modules that are proper names; false for '..' (_refuted). No symbolic links."},
"C58": {"status": "partial", "note": "False: state is kept per rsync module, to which any authority can bind its own address (_refuted). Proved: only addresses bound to the module matter."},
"C59": {"status": "partial", "note": "Termination proved; output is missing when the maximum of iterations ends the loop (_refuted)."},
"C60": {"status": "partial", "note": "Proved for HTTP downloads; after the rsync fallback the place is a directory and no download succeeds any more (_refuted)."},
"C61": {"status": "partial", "note": "Chain proved without conditions; holding of the addresses up to the anchor proved where resources are well formed and no inheriting certificate is issued by an inheriting one; false with nested inheritance (_refuted). Converse: authorised entries are exported."},
"C62": {"status": "partial", "note": "Proved for decoded objects below well-formed trust anchors and AS numbers of 32 bits; false for others (_refuted)."},
"C63": {"status": "partial", "note": "Both directions proved for decoded objects below well-formed trust anchors (C95 discharges this for octets in a cache); refuted for routes with origin 0, because an AS number beyond 32 bits reads as AS 0."},
"C64": {"status": "proved", "note": "For encodings below 2^31 octets; IPv4 entries are returned first; an inherit marker stands alone."},
"C65": {"status": "partial", "note": "False: the content type is never compared (_refuted, for every signer and every content type of at most eleven octets)."},
"C66": {"status": "partial", "note": "Proved for ROAs, manifests and XML messages without the strict check; with it the library refuses its own objects (_refuted)."},
"C67": {"status": "partial", "note": "False for DecodeROA, DecodeManifest and DecodeXML (_refuted). Proved: exactly which objects make them panic. DecodeCertificate never does: its model is total, x509.ParseCertificate being a function."},
"C68": {"status": "partial", "note": "False for bit strings longer than the address, unknown families, reversed ranges (_refuted). Proved: a grammar of everything accepted, with the meaning of each production including these exceptions; prefixes and ranges that fit denote the encoded intervals."},
"C69": {"status": "partial", "note": "Proved for complete documents, documents breaking off inside their element, and foreign notifications; a snapshot or delta document without a root of the right name counts as an empty one, kind, session and serial of a document are not compared, repeated roots deliver twice (_refuted)."},
"C70": {"status": "proved", "note": "Both directions for the two parsers (encoding/asn1 and time.Parse as used by it), the day arithmetic against a calendar counted month by month, and the order of instants."},
"C71": {"status": "partial", "note": "False for negative AS numbers, reversed ranges, ignored elements, UTCTime, other string types and trailing octets (_refuted). Proved: a grammar of everything accepted, with the meaning of each production."},
"C72": {"status": "partial", "note": "False as stated: the length of the wrapper around SignedData is not compared with its contents (_refuted). Proved: a grammar of all signed objects accepted, the contents used are the ones written there, and the signature covers the digest of these contents in the sense of C27. Objects shorter than 2^48 (2^46) octets."},
"C73": {"status": "proved", "note": "For every cache of octets, all flags, and all results of the X.509 parser and signature verification: each exported entry comes from a file of the exploration that is a signed ROA, checked with the key of its certificate, which has a chain of verified signatures up to the key written in a locator; a manifest lists the file with its hash. Cached files shorter than 2^46 octets."},
"C74": {"status": "partial", "note": "Proved where addresses of certificates are well formed and no inheriting certificate is issued by an inheriting one (C61 is false otherwise)."},
"C75": {"status": "partial", "note": "Exact for times from 1677 to 2262 and AS numbers of 32 bits, with the cache unchanged since the exploration; refuted outside these bounds, and for manifests of CAs that were invalidated, which stay in the report."},
"C76": {"status": "partial", "note": "The contents are proved for all byte strings and for every way the library may refuse further certificates; refuted: unknown critical extensions are passed over (the program never looks at UnhandledCriticalExtensions). crypto/x509 is not in /repo: the model follows the vendored copy, variables cover known differences."},
"C77": {"status": "partial", "note": "Authority, key usage and the RSA signature with SHA-256 are proved; other signature algorithms are a variable, and so are the keys for which the vendored copy makes an exception. Refuted: the path length is never looked at."},
"C78": {"status": "proved", "note": "For every cache of octets (files shorter than 2^46 octets), all flags and library versions. Signatures of other algorithms than RSA with SHA-256 are decided by a variable. crypto/x509 itself is modelled after the vendored copy."},
"C79": {"status": "partial", "note": "Contents and signature are proved; refuted: a certificate that is no authority may sign a list, and a list is accepted after its next update."},
"C80": {"status": "partial", "note": "Termination, origin of the files and chain of trust are proved. False: the directory read has the name of the address instead of its local copy, so nothing below the trust anchors is found (proved for every cache); digests on manifests have no effect (_refuted)."},
"C81": {"status": "partial", "note": "Modules, lists and names are exact, and every address shown was registered with its module. False: the address shown need not be the one used for fetching, since an update through a pointer into an array that append has left is lost; and it may come from a certificate below another locator (_refuted)."},
"C82": {"status": "partial", "note": "Lines, their order and files are exact; coverage for certificates with plain addresses that do not inherit, and no panic if every prefix decoded. False: manifests are compared with the clock, not with the time given, and a time that cannot be read gives an empty list without a message."},
"C83": {"status": "partial", "note": "Pairs are exact; places are independent of the order if no other key occurs in address or place. False for keys that overlap (_refuted); a directory with = in its name is passed over."},
"C84": {"status": "partial", "note": "Holds for octorpki with at least one worker; without workers it hangs (_refuted). ctrpki never gets stuck but may end with up to as many chains unsubmitted as it has workers, possibly all of them (_refuted), and submits the chains of earlier locators again (_refuted)."},
"C85": {"status": "partial", "note": "Termination, origin and separation hold for all lists. Coverage is characterised exactly; it fails for an address added after one below it (the counter of an entry that is found is not stored) and for addresses without module (_refuted)."},
"C86": {"status": "partial", "note": "encoding/json is modelled, not part of the repository. Unicode texts are kept exactly, any others with the bytes replaced that are not UTF-8; addresses that are not Unicode can then collapse into one, and a file containing null leaves a nil map (_refuted). A failing write is only covered as a prefix of the new contents."},
"C87": {"status": "proved", "note": "encoding/json is modelled, not part of the repository. Exact for Unicode texts (the quantifier of the property); for any other bytes the text carries the list with the bytes replaced that are not UTF-8 (C87_any_list)."},
"C88": {"status": "partial", "note": "Made, read back, attributed, accepted and effective for every order with a name that is a SEQUENCE, calendar dates, key identifiers of at most 125 octets and numbers of at most 20 octets; the result is shorter than 2^31 octets. Refuted: a list without entries has an empty SEQUENCE where RFC 5280 5.1.2.6 wants none. That the signer makes PKCS #1 signatures of the issuer's key is a hypothesis."},
"C89": {"status": "partial", "note": "The report is proved for outputs made of lines shorter than 64 KiB and sources that are addresses; the place only for sources whose printed names are relative to all of them (a module, as octorpki passes it, or a trailing slash). Refuted: directories without trailing slash, file names that begin like a deletion, longer lines, sources of fewer than eight octets. What rsync prints and where it puts files is a specification of that program."},
"C90": {"status": "partial", "note": "Proved: every file is accepted, or reported itself, or unreadable in a repository not synchronised, or a revocation list reported by a nil error; no certificate stops being valid silently; the type of an error states the reason; reporting changes nothing. The last two ways of not being accepted leave no report that names the file (_refuted)."},
"C91": {"status": "partial", "note": "Proved: addresses in Unicode are written in the form of RFC 5280 and read back, others refused; policies with an ASCII address; criticality; resources and locations of a certificate with these extensions in any order; key identifiers and their injectivity up to collisions of SHA-1. Refuted: addresses outside ASCII are written, without an address an empty list of qualifiers is written, CheckCertificate crashes on a locator made by CreateTAL."},
"C92": {"status": "partial", "note": "Proved: exploration by manifests equals exploration of the corresponding cache with the digest checks switched off; in both modes the validator is given files of the queue and resources of named repositories only, valid certificates and ROAs chain to a locator, streams are given in order and once, and the run ends. Refuted: the strict setting has no effect (for all inputs), so altered files and expired manifests are accepted; a broken stream is taken for a complete one."},
"C93": {"status": "partial", "note": "Proved for every key whose modulus is a product of different odd primes: the exponents undo each other, the computation with Chinese remainders equals the plain one for any number of primes, RSAPublicDecrypt gives back what PrivateEncrypt was given, blinding does not change signatures, SignPKCS1v15 makes the signatures that C66 and C88 assume (soundness for any key). Refuted: the result of PrivateEncrypt has as many octets as the modulus. SignPKCS1v15 is a library function, modelled from its documentation and source; negative exponents are outside of the model."},
"C94": {"status": "partial", "note": "Proved for all rounds of the loop, all requests and all schedules: the data under FetchLock, the domain, job, RRDP, information and resource locks and the data of the loop alone are not raced for; locks are released by their holders only and by all of them; the loop comes to the locators and to validation only when the fetching workers have ended (C94_waits); what is served never gets older; if the clients of /resources.json read, the loop can always go on and requests can be answered. Refuted: a client of /resources.json that does not read stops validation for good and blocks later clients; ROAList, ROAsTALsCount, LastComputed and ValidationDuration are raced for; a list is served with the age of another one. The atomic fields and the one-off mode are not modelled; a write to the client is taken to wait for the client (buffers are ignored)."},
"C95": {"status": "partial", "note": "Proved for all caches of octets whose trust anchors list addresses of the two families (without this C45_malformed_anchor_refuted applies): the list is generated, its text is read in one way, and verdicts rest on certified ROAs in the cache, and conversely for entries inside the resources of the ROA's own certificate. Routes with origin 0 are excluded for Valid, since a number beyond 32 bits reads as 0 (C63_origin_refuted); lists below 2^31-1 entries (C49). The consumer reads by the code of gortr's prefixfile; RTR itself is not modelled."},
"C96": {"status": "partial", "note": "Proved for every exploration, from any initial files and in any order: no certificate stays valid (or in the chain of a valid or exported ROA) that is on a list which was taken as a list, is published by the issuer (on its manifest, or named by a certificate it issued), has the right digest and is signed by the issuer's valid certificate. Excepted are certificates taken as trust anchors, and known certificates must not share identifier and serial number (C04_serial_reuse_refuted). A location taken first as something else is not used as a list (C96_hidden_refuted), and no list is needed for validity (C96_needed_refuted)."},
"C97": {"status": "partial", "note": "Proved for all sequences of validations and all moments: a list that is given is that of the last complete validation (or the initial empty one without -output.wait), the client is up to date if no two lists are made in one second and the hash has no collisions, one-off mode writes the list of the last validation, and what is told about routes rests on the cache of that validation (below plain anchors, as in C95). Refuted: with -output.wait the list of a validation that met new repositories is given out once a state was stable; without it an empty list is given at the start; two lists of one second with as many entries leave the client with the old one."},
"C98": {"status": "partial", "note": "Proved for every exploration that ends without a crash, from any initial files and with anything else in the cache: files in order up to the anchor of a locator are valid, their ROAs are valid and exported, what they name and list is looked at. Missing: certificates whose issuer inherits resources. Two conditions about others are needed: no other file with the same key identifier (C98_key_taken_refuted: an object whose signature does not verify blocks it) and, for files to be looked at, nobody else naming the location (C54_suppression_refuted)."},
"C99": {"status": "partial", "note": "Reading of texts, the converse, termination, the trichotomy for arbitrary octets and the refusal of texts cut off inside their element are proved for all octets and all tables of name characters; the update theorem is partial as C69 is (texts without an element of the right name or with several, octets that are no XML outside it). Documents in other encodings than UTF-8 count as empty and texts that are not well-formed are read (_refuted)."}
}
