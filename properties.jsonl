{"id": "C01", "title": "Every valid object has a complete chain of trust", "statement": "After any sequence of TAL, certificate, ROA, manifest, CRL additions and invalidations, every ROA and certificate reported valid has a finite chain of issuer certificates, each of them still reported valid, ending in a trust anchor certificate; every non-anchor link carries a signature verified against its issuer and every certificate in the chain was inside its validity window at the validation time.", "quantifier": "all finite sequences of validator operations from an empty validator, all certificates, all signature outcomes", "why_tests_cant": "histories are unbounded and orders of arrival matter (parent late, CRL late, invalidation in the middle); tests fix a handful of repositories", "anchors": ["validator/pki/pki.go:AddCert", "validator/pki/pki.go:ValidateCertificate", "validator/pki/pki.go:InvalidateObject", "validator/pki/pki.go:AddROA"]}
{"id": "C02", "title": "Invalidation removes the whole subtree and nothing else", "statement": "Invalidating a key identifier terminates and removes from the valid certificates, valid ROAs and valid CRLs exactly the object and everything issued below it; every other object keeps its status.", "quantifier": "all reachable validator states, including shared and cyclic child graphs, all key identifiers", "why_tests_cant": "the shape of the issuance graph is unbounded; tests only show small trees", "anchors": ["validator/pki/pki.go:InvalidateObject"]}
{"id": "C03", "title": "Invalidation is permanent", "statement": "Once a known object has been invalidated (by revocation, a broken manifest or directly) no later operation of the same run makes an object with that key identifier valid again.", "quantifier": "all reachable states and all later operation sequences", "why_tests_cant": "needs every continuation of every history", "anchors": ["validator/pki/pki.go:AddCert", "validator/pki/pki.go:InvalidateObject"]}
{"id": "C04", "title": "A revoked certificate is never valid, in either arrival order", "statement": "If a CRL accepted from issuer A lists serial S then after that no certificate with issuer A and serial S is valid, whether the certificate was added before or after the CRL.", "quantifier": "all operation sequences", "why_tests_cant": "depends on arrival order and on every later operation", "anchors": ["validator/pki/pki.go:AddCRL", "validator/pki/pki.go:AddCert", "validator/pki/pki.go:ValidateCertificate"]}
{"id": "C05", "title": "A CRL only affects certificates of its own issuer", "statement": "Accepting a CRL issued by A never invalidates, and never causes the later rejection of, a certificate whose issuer is not A and which is not below a certificate issued by A.", "quantifier": "all key identifiers, serial numbers, CRLs and reachable states", "why_tests_cant": "the index is a concatenation of attacker chosen byte strings; only specially chosen values collide", "anchors": ["validator/pki/pki.go:AddCRL", "validator/pki/pki.go:CertsSerial", "validator/pki/pki.go:Revoked"]}
{"id": "C06", "title": "A valid certificate claims only resources its ancestors hold", "statement": "A certificate accepted as valid claims only IP ranges and AS ranges contained in its issuer's resources, or, where the issuer inherits, in the resources of the nearest non-inheriting ancestor.", "quantifier": "all certificates, all chains of any length, any pattern of inherit elements", "why_tests_cant": "the ancestor walk depends on chain depth and inherit placement; tests use depth one or two", "anchors": ["validator/pki/pki.go:ValidateCertificate", "validator/lib/cert.go:IsIPRangeInCertificate", "validator/lib/cert.go:ValidateIPCertificateList"]}
{"id": "C07", "title": "Trust anchors are bound to their TAL", "statement": "A certificate is accepted from a TAL location only if its public key is the RSA key in that TAL, and only certificates fetched through a TAL are accepted without an issuer; an accepted trust anchor certificate is signed by that key.", "quantifier": "all TALs, certificates and file descriptions", "why_tests_cant": "quantifies over every substitution an on-path attacker could make", "anchors": ["validator/pki/pki.go:AddResource", "validator/lib/tal.go:CheckCertificate", "validator/pki/pki.go:AddTAL"]}
{"id": "C08", "title": "First object wins on key identifier conflict", "statement": "Adding a certificate, ROA or manifest whose key identifier is already known is rejected and does not change the status, the content or the children of the object already stored.", "quantifier": "all reachable states, all conflicting additions", "why_tests_cant": "adversarial duplicates can arrive at any time in any form", "anchors": ["validator/pki/pki.go:AddCert"]}
{"id": "C09", "title": "The validity indexes agree with each other", "statement": "After any operation sequence valid certificates are a subset of known certificates and refer to the same object, every valid ROA, manifest or CRL refers to a known one, and the certificate of every valid ROA is itself valid.", "quantifier": "all operation sequences", "why_tests_cant": "twelve maps are updated by separate code paths in different orders", "anchors": ["validator/pki/pki.go:Validator"]}
{"id": "C10", "title": "A missing or altered manifest entry discards the whole CA", "statement": "With strict manifests, if a file named on a manifest is missing, unreadable or does not match its manifest hash, then when exploration ends neither the CA that published the manifest nor anything below it is valid.", "quantifier": "all repository contents, all exploration orders and sizes", "why_tests_cant": "the offending file can be at any place of an unbounded tree, before or after its siblings", "anchors": ["validator/pki/pki.go:Explore", "validator/pki/pki.go:InvalidateManifestParent"]}
{"id": "C11", "title": "An expired or not yet valid manifest discards the CA", "statement": "When exploration meets a file listed on a manifest whose update window does not contain the current time, the CA that published the manifest and everything below it end up invalid.", "quantifier": "all repositories, all clocks", "why_tests_cant": "time and position dependent", "anchors": ["validator/pki/pki.go:Explore"]}
{"id": "C12", "title": "Exploration terminates and processes every path at most once", "statement": "For every finite repository cache, even one with cyclic references, exploration ends after a bounded number of steps, fetches no path twice and leaves no discovered path unprocessed.", "quantifier": "all caches and all decoding outcomes", "why_tests_cant": "cycles and duplicates of any size", "anchors": ["validator/pki/pki.go:Explore", "validator/pki/pki.go:PutFiles", "validator/pki/pki.go:GetNextExplore", "validator/pki/pki.go:ComputePath"]}
{"id": "C13", "title": "No object enters validation with a hash other than its manifest hash", "statement": "With strict hashes, whenever a file reached through a manifest is handed to the validator its digest equals the digest on the manifest.", "quantifier": "all repository contents and runs", "why_tests_cant": "every possible corruption in every position", "anchors": ["validator/pki/pki.go:Explore", "validator/pki/pki.go:ExploreAdd"]}
{"id": "C14", "title": "Malformed repository content never crashes the validator", "statement": "Adding any decoded certificate, ROA, manifest or CRL to any reachable state returns a result or an error; it does not panic.", "quantifier": "all decoded objects, all reachable states", "why_tests_cant": "crashing inputs are rare corner cases an attacker will find", "anchors": ["validator/pki/pki.go:AddResource", "validator/lib/cert.go:DecodeIPAddressBlock", "validator/lib/roa.go:GetRangeIP"]}
{"id": "C15", "title": "IP membership is interval membership", "statement": "An IP prefix or range of a certificate contains an address exactly when the address belongs to the same family and lies between the first and last address of that prefix or range.", "quantifier": "all prefixes of all lengths, all ranges, all addresses of both families", "why_tests_cant": "2^128 addresses times all prefixes", "anchors": ["validator/lib/cert.go:IsIPInRange", "validator/lib/cert.go:IPNet", "validator/lib/cert.go:IPAddressRange"]}
{"id": "C16", "title": "Decoded prefixes and bounds denote the right addresses", "statement": "The first and last address computed from an encoded prefix or range bound are the numerically smallest and largest address with these leading bits.", "quantifier": "all bit strings of all lengths for both families", "why_tests_cant": "bit level arithmetic at every length", "anchors": ["validator/lib/cert.go:DecodeIP", "validator/lib/cert.go:DecodeIPMinMax", "validator/lib/roa.go:GetRangeIP"]}
{"id": "C17", "title": "Resource checking classifies every element exactly once", "statement": "Comparing a resource list with a parent splits it into valid, invalid and to-be-checked-higher parts that together are exactly the list; valid means contained in one element of the parent (or inherited) and to-be-checked-higher only occurs when the parent inherits that family.", "quantifier": "all lists, all parents", "why_tests_cant": "all list shapes", "anchors": ["validator/lib/cert.go:ValidateIPCertificateList", "validator/lib/cert.go:ValidateASNCertificateList", "validator/lib/roa.go:ValidateIPRoaCertificateList"]}
{"id": "C18", "title": "AS number containment is interval containment", "statement": "An AS range is accepted against a certificate exactly when some element of the certificate contains the whole range; the answer is inherit only if the certificate has an inherit element.", "quantifier": "all AS lists, all integer ranges", "why_tests_cant": "unbounded lists and ranges", "anchors": ["validator/lib/cert.go:IsASRangeInCertificate", "validator/lib/cert.go:ASNRange"]}
{"id": "C19", "title": "IP resource extension round trip", "statement": "Decoding an encoded IP address block returns the same resources, family by family.", "quantifier": "all lists of prefixes, ranges and inherit markers", "why_tests_cant": "all bit lengths and groupings", "anchors": ["validator/lib/cert.go:EncodeIPAddressBlock", "validator/lib/cert.go:DecodeIPAddressBlock", "validator/lib/cert.go:IPNetToBitString", "validator/lib/cert.go:IPToBitString"]}
{"id": "C20", "title": "ROA entry well-formedness", "statement": "A ROA is accepted only if every entry satisfies prefix length <= max length <= address size of its family; and every such ROA passes this check.", "quantifier": "all ROA entry lists", "why_tests_cant": "every combination of family, length and max length including absent ones", "anchors": ["validator/lib/roa.go:Validate", "validator/lib/roa.go:ValidateEntries", "validator/lib/roa.go:ConvertROAEntries"]}
{"id": "C21", "title": "Only prefixes covered by the ROA's own certificate are emitted", "statement": "Every prefix a ROA marks as validated lies inside one IP resource of the ROA's end-entity certificate.", "quantifier": "all entry lists, all certificates", "why_tests_cant": "all combinations of entries and resources, including malformed prefixes", "anchors": ["validator/lib/roa.go:ValidateIPRoaCertificateList", "validator/lib/roa.go:ValidateIPRoaCertificate"]}
{"id": "C22", "title": "ROA entries round trip", "statement": "Converting ROA entries to their ASN.1 form and back returns the same prefixes and max lengths, IPv4 entries first.", "quantifier": "all lists of well-formed entries", "why_tests_cant": "all lengths and families", "anchors": ["validator/lib/roa.go:GroupEntries", "validator/lib/roa.go:EncodeROAEntries", "validator/lib/roa.go:ConvertROAEntries"]}
{"id": "C23", "title": "BER conversion terminates with a definite-length encoding", "statement": "Converting any byte string from BER to DER terminates, and on success yields a single definite-length object.", "quantifier": "all byte strings", "why_tests_cant": "all inputs, all nesting depths", "anchors": ["validator/lib/ber.go:BER2DER", "validator/lib/ber.go:readObject"]}
{"id": "C24", "title": "BER conversion leaves DER unchanged and is idempotent", "statement": "Converting data that is already DER returns it byte for byte, so signatures computed over it stay valid; converting twice equals converting once.", "quantifier": "all DER trees of any depth and size below the length limit", "why_tests_cant": "all trees and all length encodings", "anchors": ["validator/lib/ber.go:BER2DER", "validator/lib/ber.go:encodeLength", "validator/lib/ber.go:EncodeTo"]}
{"id": "C25", "title": "BER conversion reports errors instead of panicking", "statement": "Converting any byte string returns a result or an error.", "quantifier": "all byte strings", "why_tests_cant": "truncated inputs at every byte", "anchors": ["validator/lib/ber.go:readObject"]}
{"id": "C26", "title": "BER conversion output is not larger than its input by more than a constant factor", "statement": "The converted object is bounded by a linear function of the size of the input.", "quantifier": "all byte strings", "why_tests_cant": "worst case inputs are adversarial", "anchors": ["validator/lib/ber.go:readObject"]}
{"id": "C27", "title": "CMS signatures bind content and attributes", "statement": "A signed object passes signature validation only if its digest attribute equals the digest of its content and the signature block is a correctly padded PKCS#1 v1.5 block over the digest of its signed attributes.", "quantifier": "all CMS objects, all keys", "why_tests_cant": "forgeries exploit padding freedom", "anchors": ["validator/lib/cms.go:Validate", "validator/lib/cms.go:CheckSignaturesMatch", "validator/lib/cms.go:RSAPublicDecrypt"]}
{"id": "C28", "title": "Fragmented content is reassembled exactly", "statement": "Content split in any number of octet-string fragments is reassembled to the concatenation of the fragments in order.", "quantifier": "all fragment lists", "why_tests_cant": "all counts and sizes", "anchors": ["validator/lib/cms.go:BadFormatGroup"]}
{"id": "C29", "title": "TAL text round trip", "statement": "Reading back a written TAL yields the same URIs in the same order and the same key bytes.", "quantifier": "all URI lists, all key encodings, all line widths", "why_tests_cant": "depends on key length modulo 3 and on line width", "anchors": ["validator/lib/tal.go:EncodeTALSize", "validator/lib/tal.go:DecodeTAL"]}
{"id": "C30", "title": "TAL URI selection", "statement": "The location used for a TAL is its first rsync URI; a TAL without one gets a name that no rsync URI of another TAL can equal unless hashes collide.", "quantifier": "all URI lists", "why_tests_cant": "all list shapes", "anchors": ["validator/lib/tal.go:GetRsyncURI"]}
{"id": "C31", "title": "RRDP deltas are applied gap-free and in order", "statement": "A successful RRDP update either replays a full snapshot or applies exactly the deltas numbered after the stored serial up to the announced serial, each once and in increasing order; a snapshot is used whenever the session changed, no serial is stored or a delta is missing.", "quantifier": "all notification files, stored states and server answers", "why_tests_cant": "all gaps, orders and duplicates in the delta list", "anchors": ["sync/lib/rrdp.go:FetchRRDP"]}
{"id": "C32", "title": "RRDP state advances only on complete success", "statement": "If any download or any delivered file fails, the stored session and serial are unchanged; after success they describe the announced session and serial.", "quantifier": "all failure points", "why_tests_cant": "every failure position", "anchors": ["sync/lib/rrdp.go:FetchRRDP", "cmd/octorpki/octorpki.go:fetchRRDP"]}
{"id": "C33", "title": "Retrying after a crash or failure converges", "statement": "Interrupting an RRDP update at any point, losing all memory since the last saved state and running it again yields the same cache content and stored serial as an uninterrupted run.", "quantifier": "all crash points, all delta sequences, any number of crashes", "why_tests_cant": "all interruption points", "anchors": ["sync/lib/rrdp.go:FetchRRDP", "cmd/octorpki/octorpki.go:ReceiveRRDPFileCallback", "cmd/octorpki/octorpki.go:saveRRDPInfo"]}
{"id": "C34", "title": "A withdrawn file disappears", "statement": "After an RRDP update that withdraws a file the file is no longer served from the cache.", "quantifier": "all deltas", "why_tests_cant": "depends on sequences of publish and withdraw", "anchors": ["cmd/octorpki/octorpki.go:ReceiveRRDPFileCallback", "sync/lib/rrdp.go:FetchRRDP"]}
{"id": "C35", "title": "RRDP payload decoding is exact", "statement": "The file delivered for a published element is the base64 decoding of its text with white space removed.", "quantifier": "all payloads and white space placements", "why_tests_cant": "all lengths and placements", "anchors": ["sync/lib/rrdp.go:DecodeRRDPBase64"]}
{"id": "C36", "title": "Repository data is written only inside the cache", "statement": "No publication address makes the validator create or overwrite a file or directory outside its cache directory.", "quantifier": "all addresses (byte strings)", "why_tests_cant": "path traversal hides in unusual strings", "anchors": ["cmd/octorpki/octorpki.go:WriteRsyncFileOnDisk", "validator/pki/pki.go:ExtractPathManifest", "sync/lib/fetch.go:ParseMapDirectory"]}
{"id": "C37", "title": "An RRDP server can only write files of its own rsync host", "statement": "Files delivered by the RRDP server bound to rsync domain D are stored only below the cache directory of D.", "quantifier": "all delivered addresses", "why_tests_cant": "adversarial addresses", "anchors": ["cmd/octorpki/octorpki.go:ReceiveRRDPFileCallback"]}
{"id": "C38", "title": "A file is read where it was written", "statement": "The cache location consulted for an rsync address is the location where data for that address was stored.", "quantifier": "all addresses", "why_tests_cant": "string rewriting on arbitrary strings", "anchors": ["sync/lib/fetch.go:GetLocalPath", "cmd/octorpki/octorpki.go:WriteRsyncFileOnDisk", "sync/lib/rsync.go:GetDownloadPath"]}
{"id": "C39", "title": "RRDP failure falls back to rsync and success does not", "statement": "After an RRDP round the rsync jobs left are exactly those whose RRDP fetch failed with failover allowed, plus those without RRDP.", "quantifier": "all sets of repositories and outcomes, all completion orders", "why_tests_cant": "all interleavings of workers", "anchors": ["cmd/octorpki/octorpki.go:fetchRRDP", "cmd/octorpki/octorpki.go:rrdpError", "cmd/octorpki/rrdp_fetcher.go"]}
{"id": "C40", "title": "The fetch worker pool processes every job exactly once", "statement": "For any number of workers (at least one) and any scheduling, each RRDP or rsync job is processed exactly once and the pool returns only after all are finished; it never deadlocks.", "quantifier": "all schedules, all job lists, all positive worker counts", "why_tests_cant": "all interleavings", "anchors": ["cmd/octorpki/rrdp_fetcher.go:fetch", "cmd/octorpki/rsync_fetcher.go:fetch"]}
{"id": "C41", "title": "An RRDP address stays bound to its first rsync host", "statement": "Once an RRDP notification address has been associated with an rsync domain, no later certificate can re-associate it with another domain.", "quantifier": "all sequences of validated certificates over all iterations", "why_tests_cant": "histories of any length", "anchors": ["cmd/octorpki/octorpki.go:mainValidation", "cmd/octorpki/octorpki.go:setRRDPDomain"]}
{"id": "C42", "title": "No output is served before the first complete validation and output stays available afterwards", "statement": "The ROA list is refused until validation has been stable once (when waiting for stability is enabled) and is served from then on.", "quantifier": "all sequences of iterations and refreshes", "why_tests_cant": "histories of any length", "anchors": ["cmd/octorpki/octorpki.go:ServeROAs", "cmd/octorpki/octorpki.go:validationLoop"]}
{"id": "C43", "title": "The validation loop reaches a stable state", "statement": "Validation is declared stable exactly when an iteration after the first discovers no new repository, and in every case after at most the configured maximum number of iterations.", "quantifier": "all discovery sequences", "why_tests_cant": "all histories", "anchors": ["cmd/octorpki/octorpki.go:validationLoop", "cmd/octorpki/octorpki.go:MainReduce"]}
{"id": "C44", "title": "Duplicate removal keeps one entry per distinct VRP", "statement": "Duplicate filtering returns, in order of first occurrence, exactly one entry for each distinct (prefix, max length, AS) of the input.", "quantifier": "all ROA lists", "why_tests_cant": "all lists", "anchors": ["cmd/octorpki/octorpki.go:filterDuplicates", "cmd/octorpki/filter.go:FilterDuplicates"]}
{"id": "C45", "title": "Prefix length filter", "statement": "The prefix length filter keeps exactly the entries with IPv4 length at most 24 or IPv6 length at most 48, in order.", "quantifier": "all ROA lists", "why_tests_cant": "all lists", "anchors": ["cmd/octorpki/filter.go:FilterInvalidPrefixLen"]}
{"id": "C46", "title": "Exported ROA count matches the exported list", "statement": "The count in the output metadata equals the number of exported entries.", "quantifier": "all ROA sets", "why_tests_cant": "depends on duplicates", "anchors": ["cmd/octorpki/octorpki.go:generateROAList"]}
{"id": "C47", "title": "A client is told 'not modified' only if the list is unchanged", "statement": "Two different exported lists never carry the same entity tag.", "quantifier": "all pairs of exported lists", "why_tests_cant": "all pairs", "anchors": ["cmd/octorpki/octorpki.go:ServeROAs"]}
{"id": "C48", "title": "Origin validation implements RFC 6811", "statement": "For every VRP set and route the reported state is Valid iff some VRP covers the route with equal AS and sufficient max length, Invalid iff some VRP covers it but none matches, NotFound otherwise; the reported VRPs are exactly the covering ones.", "quantifier": "all VRP lists, all routes of both families", "why_tests_cant": "all prefix sets", "anchors": ["ov/ov.go:NewOV", "ov/ov.go:Validate", "ov/ov.go:Filter"]}
{"id": "C49", "title": "The prefix tree never panics and finds exactly the covering prefixes", "statement": "Any sequence of insertions into the prefix tree completes without hitting an internal panic, and a lookup returns exactly the tags inserted under prefixes covering the query, shortest prefix first and in insertion order for equal prefixes.", "quantifier": "all insertion sequences, all queries, both families", "why_tests_cant": "tree shapes depend on the whole history", "anchors": ["vendor/github.com/kentik/patricia/int64_tree/tree_v4.go:add", "vendor/github.com/kentik/patricia/int64_tree/tree_v4.go:FindTagsWithFilterAppend"]}
{"id": "C50", "title": "Signed output does not depend on the order of entries", "statement": "Signing the same ROA set in any order produces the same digest input, and a consumer recomputing it accepts.", "quantifier": "all permutations", "why_tests_cant": "all permutations", "anchors": ["cmd/octorpki/octorpki.go:signROAList", "vendor/github.com/cloudflare/gortr/prefixfile/prefixfile.go:GenerateDigestGoStruct"]}
{"id": "C51", "title": "Certificate transparency chains are complete and finite", "statement": "For every valid object the submitted chain starts at the object, follows issuer links and ends at a trust anchor; building it terminates even on cyclic issuer references.", "quantifier": "all sets of valid objects", "why_tests_cant": "all graphs", "anchors": ["cmd/octorpki/octorpki.go:sendCertificateTransparency", "cmd/octorpki/ct.go"]}
{"id": "C52", "title": "A manifest is honoured only for the CA that issued it", "statement": "The manifest used to discover a CA's products is issued by that CA.", "quantifier": "all repositories", "why_tests_cant": "adversarial repositories", "anchors": ["validator/pki/pki.go:AddManifest", "validator/pki/pki.go:ExploreAdd"]}
{"id": "C53", "title": "BER conversion preserves the encoded value", "statement": "Converting a BER encoding of a value, with any mix of definite and indefinite lengths, returns the DER encoding of the same value, whatever bytes follow it.", "quantifier": "all BER values of any depth and width, all choices of length form, all trailing bytes", "why_tests_cant": "The nesting of length forms is unbounded and the parser walks back after overlong children, so samples cannot show that no nesting is misread.", "anchors": ["validator/lib/ber.go:BER2DER", "validator/lib/ber.go:readObject", "validator/lib/ber.go:isIndefiniteTermination"]}
{"id": "C54", "title": "An unrelated CA cannot keep valid objects from being used", "statement": "Whether the objects listed on the manifest of a valid CA are validated does not depend on the contents of objects issued by an unrelated CA.", "quantifier": "all repository contents and all pairs of CAs neither of which is above the other", "why_tests_cant": "Needs a statement over pairs of repositories that differ in an attacker-controlled part; the order of the queue decides which reference to a path wins.", "anchors": ["validator/pki/pki.go: PutFiles, GetNextFile, ExploreAdd, ExtractPathCert"]}
{"id": "C55", "title": "Correctly signed objects are accepted", "statement": "A signed object whose digest attribute is the digest of its content and whose signature is a correct PKCS#1 v1.5 signature over the DER encoding of its signed attributes passes signature validation.", "quantifier": "all contents, attribute sets, keys and signatures", "why_tests_cant": "the error depends on the length of the attribute set crossing 127 octets; the test objects are all shorter", "anchors": ["validator/lib/cms.go:Validate", "validator/lib/cms.go:RSAPublicDecrypt"]}
{"id": "C56", "title": "No address served over RRDP ends the validator", "statement": "Whatever addresses an RRDP server publishes, the update ends with success or an error; the process is not terminated.", "quantifier": "all addresses, all cache contents", "why_tests_cant": "The set of addresses and cache states is infinite and the fatal cases are combinations of both (an address below an existing file).", "anchors": ["cmd/octorpki/octorpki.go:WriteRsyncFileOnDisk", "cmd/octorpki/octorpki.go:mustMkdirAll", "cmd/octorpki/octorpki.go:ReceiveRRDPFileCallback"]}
{"id": "C57", "title": "An rsync repository is downloaded only into the directory of its own host", "statement": "The directory made and handed to rsync for a repository named by a certificate lies below the cache directory, in the directory named after the repository's host.", "quantifier": "all SIA addresses in validated certificates, all cache paths", "why_tests_cant": "all addresses, including dot components", "anchors": ["cmd/octorpki/octorpki.go:fetchRsync", "sync/lib/rsync.go:RunRsync", "sync/lib/utils.go:ExtractRsyncDomainModule"]}
{"id": "C58", "title": "RRDP state of one server is not influenced by another server", "statement": "The stored session and serial used for the updates from an RRDP address result only from fetches of that address.", "quantifier": "all sets of validated certificates, all servers, all schedules", "why_tests_cant": "all combinations of certificates and fetch orders", "anchors": ["cmd/octorpki/octorpki.go:fetchRRDP", "cmd/octorpki/octorpki.go:newRRDPSystem", "cmd/octorpki/octorpki.go:mainValidation"]}
{"id": "C59", "title": "One-off mode ends and writes its output", "statement": "In one-off mode the program terminates after finitely many iterations and has written the output before it ends.", "quantifier": "all discovery sequences and configurations", "why_tests_cant": "all histories", "anchors": ["cmd/octorpki/octorpki.go:validationLoop", "cmd/octorpki/octorpki.go:mustOutput"]}
{"id": "C60", "title": "A root certificate fetched over HTTP or by the rsync fallback becomes available", "statement": "When a download of the root certificate named by a TAL succeeds, the certificate is what the validation reads; and a failed attempt, including the fallback to rsync, does not prevent a later successful one.", "quantifier": "all TALs, download outcomes and cache contents", "why_tests_cant": "all histories of the cache", "anchors": ["cmd/octorpki/octorpki.go:fetchTAL", "cmd/octorpki/octorpki.go:fetchRsync", "sync/lib/rsync.go:RunRsync"]}
{"id": "C61", "title": "Every exported authorisation is backed by a chain of certificates holding its addresses", "statement": "Every entry of the exported list stems from an entry of a valid ROA whose certificate chain up to a trust anchor is valid, and every certificate of that chain holds (or inherits) the addresses; conversely every entry of a valid ROA inside its certificate's resources is exported unless filtered.", "quantifier": "all sequences of validator operations for all trust anchor locators, all export settings and iteration orders", "why_tests_cant": "end-to-end over unbounded certificate trees", "anchors": ["cmd/octorpki/octorpki.go:generateROAList", "validator/pki/pki.go:AddROA", "validator/lib/roa.go:ValidateIPRoaCertificate"]}
{"id": "C62", "title": "A consumer reads back what the ROA says", "statement": "Reading an exported entry with the consumer's library gives the prefix, maximum length and AS number of the ROA entry it was made from.", "quantifier": "all exported lists", "why_tests_cant": "all addresses, prefix lengths and AS numbers", "anchors": ["cmd/octorpki/octorpki.go:generateROAList", "vendor/github.com/cloudflare/gortr/prefixfile/prefixfile.go:GetPrefix2", "vendor/github.com/cloudflare/gortr/prefixfile/prefixfile.go:GetASN2"]}
{"id": "C63", "title": "Consumers judge routes only by valid ROAs", "statement": "When the exported list is loaded into the origin validator, a route is reported Valid only if an entry of a ROA that passed validation covers it with the route's AS and a sufficient max length, and Invalid only if an entry of such a ROA covers it; conversely a route authorised by an entry of a valid ROA inside its certificate's own resources is reported Valid unless the length filter drops the entry.", "quantifier": "all runs of the validator, all generated lists, all routes of both families", "why_tests_cant": "composes validation, export, text encoding, text decoding and the prefix tree for all inputs", "anchors": ["cmd/octorpki/octorpki.go:generateROAList", "ov/ov.go:Validate", "vendor/github.com/cloudflare/gortr/prefixfile/prefixfile.go:GetPrefix2"]}
{"id": "C64", "title": "Extensions and contents survive encoding to octets", "statement": "Decoding the octets the library writes for a list of IP resources, AS resources, access locations, ROA entries or a manifest returns the same list, entries or manifest.", "quantifier": "all canonical resource lists, entry lists and manifests whose encoding is below 2^31 octets", "why_tests_cant": "all sizes: every length crosses one- to four-octet length forms, every integer, bit string and date", "anchors": ["validator/lib/cert.go:EncodeIPAddressBlock", "validator/lib/cert.go:EncodeASN", "validator/lib/cert.go:EncodeSIA", "validator/lib/roa.go:EncodeROAEntries", "validator/lib/manifest.go:EncodeManifestContent"]}
{"id": "C65", "title": "A signed object is used only as the type it declares", "statement": "DecodeROA accepts only objects whose content type is the ROA type, and DecodeManifest only objects whose content type is the manifest type.", "quantifier": "all byte strings", "why_tests_cant": "no finite set of objects shows what is never compared", "anchors": ["validator/lib/roa.go:DecodeROA", "validator/lib/manifest.go:DecodeManifest"]}
{"id": "C66", "title": "Objects the library creates are accepted by the library", "statement": "A ROA or manifest made with EncodeROAEntries or EncodeManifestContent, EncodeCMS and Sign decodes to the same entries or files, with a valid inner signature.", "quantifier": "all entry lists, manifests, certificates, key identifiers, signing times and RSA keys", "why_tests_cant": "composes five encoders with all their length forms and the signature arithmetic", "anchors": ["validator/lib/cms.go:EncodeCMS", "validator/lib/cms.go:Sign", "validator/lib/roa.go:DecodeROA", "validator/lib/manifest.go:DecodeManifest"]}
{"id": "C67", "title": "No byte string crashes the decoders", "statement": "DecodeCertificate, DecodeROA, DecodeManifest and DecodeXML return a result or an error for every byte string.", "quantifier": "all byte strings, both settings of strict checking", "why_tests_cant": "all inputs", "anchors": ["validator/lib/cert.go:DecodeCertificate", "validator/lib/roa.go:DecodeROA", "validator/lib/manifest.go:DecodeManifest", "validator/lib/xml.go:DecodeXML"]}
{"id": "C68", "title": "Decoded resources denote the encoded addresses", "statement": "Every prefix and range decoded from the octets of an IP address extension or a ROA denotes an interval of addresses of one family whose ends are the smallest and largest address with the encoded bits; no other values can come out of the decoder.", "quantifier": "all byte strings", "why_tests_cant": "all inputs, including malformed ones", "anchors": ["validator/lib/cert.go:DecodeIPAddressBlock", "validator/lib/roa.go:ConvertROAEntries"]}
{"id": "C69", "title": "Only complete RRDP documents update the cache", "statement": "A downloaded notification, snapshot or delta is used only if it is a complete document of its kind; from a complete document exactly its publish and withdraw elements are delivered, with their addresses and texts, in order; anything else fails the update and leaves session and serial as they were.", "quantifier": "all token sequences an XML decoder can deliver, cut off at any point, with any elements, attributes, comments and nesting", "why_tests_cant": "all documents and all cut positions", "anchors": ["sync/lib/rrdp.go:ParseRoot", "sync/lib/rrdp.go:ParseNode", "sync/lib/rrdp.go:FetchRRDP", "sync/lib/rrdp_struct.go"]}
{"id": "C70", "title": "Times mean what is written", "statement": "The time decoder accepts exactly the texts of UTCTime (with or without seconds, years 1950 to 2049) and GeneralizedTime that denote a date of the calendar, with Z or an offset other than zero; the result has the written fields. The number of seconds it is turned into for comparisons is the number of seconds since 1970-01-01 by the Gregorian calendar, so that within one zone times are ordered as their year, month, day, hour, minute and second.", "quantifier": "all byte strings, all calendar dates of the years 0 to 9999 and all offsets", "why_tests_cant": "Leap years, month ends, the two century pivots and offsets multiply to far more cases than a test can list; an error of one day lets expired manifests count as current.", "anchors": ["validator/lib/manifest.go:DecodeManifest", "validator/lib/cms.go:GetSigningTime", "validator/pki/pki.go:SimpleManager.Explore"]}
{"id": "C71", "title": "AS resources, access locations and manifest contents are read as written", "statement": "Whatever AS resource extension, subject information access extension or manifest content is accepted has the structure RFC 3779, RFC 5280 and RFC 6486 give, and the decoded numbers, ranges, locations, times, file names and hashes are the ones written there.", "quantifier": "all byte strings accepted by DecodeASN, DecodeSubjectInformationAccess and the manifest content decoder", "why_tests_cant": "Tests decode a few well-formed files; a statement about everything the decoders accept needs the set of all octet strings.", "anchors": ["validator/lib/cert.go:DecodeASN", "validator/lib/cert.go:DecodeSubjectInformationAccess", "validator/lib/manifest.go:DecodeManifest"]}
{"id": "C72", "title": "Signed objects are read as written and the signature covers what is used", "statement": "Every byte string accepted by DecodeROA or DecodeManifest is a CMS signed object; AS number, prefixes, files and update times are the ones written in its encapsulated content, the certificate is the one embedded in it, and if the object counts as correctly signed then the signed attributes of its first signer carry the SHA-256 digest of that content and the signature opens, under the key of the embedded certificate, to the digest of those attributes.", "quantifier": "all byte strings (shorter than 2^46 octets), all results of the certificate parser, all hash functions with 32 octets", "why_tests_cant": "An attacker chooses the octets; only a statement about all of them rules out that content, digest and certificate are taken from different places.", "anchors": ["validator/lib/cms.go:DecodeCMS", "validator/lib/cms.go:Validate", "validator/lib/roa.go:DecodeROA", "validator/lib/manifest.go:DecodeManifest"]}
{"id": "C73", "title": "Every exported authorisation is written in a signed file in the cache", "statement": "Each entry of the list octorpki exports (prefix, maximum length, AS number) is written in the octets of a ROA file that the exploration of one of its trust anchor locators looked at; the signature of that file was made with the key of the certificate embedded in it; that certificate has a chain of valid certificates, linked by verified signatures, up to one whose RSA key is the key written in the locator; and a manifest in the cache lists the file, with its SHA-256 hash in strict mode.", "quantifier": "all contents of the cache, all lists of locators, all command line flags, all results of X.509 parsing and signature verification", "why_tests_cant": "The claim connects the output with attacker-chosen octets through every decoder, the queue of the manager and the state of the validator; no finite set of repositories covers it.", "anchors": ["validator/pki/pki.go:Explore", "validator/pki/pki.go:AddResource", "validator/lib/roa.go:DecodeROA", "validator/lib/manifest.go:DecodeManifest", "validator/lib/tal.go:DecodeTAL", "cmd/octorpki/octorpki.go:generateROAList"]}
{"id": "C74", "title": "The addresses of an exported entry are bits of a ROA and held by its chain", "statement": "The prefix text of each exported entry shows exactly the bit string written in the ROA of C73, its maximum length lies between the length of that bit string and the size of an address, and every certificate of a chain up to one found through a trust anchor locator holds all addresses of the prefix.", "quantifier": "all contents of the cache, all lists of locators and flags", "why_tests_cant": "As C73; in addition over all bit strings and all combinations of resources along chains of any length.", "anchors": ["validator/lib/roa.go:DecodeROA", "validator/lib/cert.go:DecodeIPAddressBlock", "validator/pki/pki.go:AddResource", "cmd/octorpki/octorpki.go:generateROAList"]}
{"id": "C75", "title": "The report lists exactly the valid objects, as they are in the cache", "statement": "The list served under /resources has, for every trust anchor locator, exactly one entry for each valid certificate with a file of its own, each valid ROA and each valid manifest, and no others; an entry gives key identifiers, serial number, validity and resources of the certificate, path and SHA-256 of the file in the cache the object was decoded from, and for a ROA the entries that are exported. Generating it never panics.", "quantifier": "all explored repositories, any number of locators, all orders in which Go iterates over the three maps", "why_tests_cant": "Needs the relation between the state of the validator and the cache in every reachable state, and all iteration orders.", "anchors": ["cmd/octorpki/octorpki.go:generateROAList", "api/schemas/schemas.go:OutputRes", "sync/lib/fetch.go:GetFileConv"]}
{"id": "C76", "title": "What is used of a certificate is written in its octets", "statement": "Whenever the octets of a certificate are accepted, they form an X.509 certificate by a grammar stated without the decoder; serial number, validity, key identifiers, IP addresses, AS numbers, access locations and public key used by the validator are the ones written there (of an extension that occurs several times, the last). A certificate with a critical extension that is not understood is refused.", "quantifier": "all byte strings, all versions of the X.509 library described by the model's variables", "why_tests_cant": "All byte strings, including malformed and ambiguous encodings; tests decode a handful of certificates.", "anchors": ["validator/lib/cert.go:DecodeCertificate", "vendor/github.com/google/certificate-transparency-go/x509/x509.go:ParseCertificate"]}
{"id": "C77", "title": "A certificate accepted as issued by another was signed by an authority", "statement": "Whenever a certificate passes the signature check against its parent, the parent's octets state that it is an authority (for version 3) and that its key may sign certificates (if it states uses at all), and the signature in the child's octets is an RSASSA-PKCS1-v1_5 signature with SHA-256 of the signed part under the RSA key in the parent's octets. The path length stated by an authority is respected.", "quantifier": "all pairs of byte strings, all RSA keys, every hash function in place of SHA-256", "why_tests_cant": "All pairs of byte strings and keys; tests use valid signatures of a few keys.", "anchors": ["validator/lib/cert.go:Validate", "validator/pki/pki.go:AddCert", "vendor/github.com/google/certificate-transparency-go/x509/x509.go:CheckSignatureFrom"]}
{"id": "C78", "title": "Each exported entry has a chain of certificates made of octets in the cache", "statement": "Each exported entry comes from a file in the cache that is a signed object with a ROA containing it; the signature verifies with the RSA key in the certificate inside the object; and from that certificate there is a chain of byte strings found in the cache, each an X.509 certificate inside its validity window, naming the key identifier of the next and signed with its key, the next being entitled to issue it, up to a certificate with exactly the RSA key written in a trust anchor locator.", "quantifier": "all contents of the cache, all lists of locators and flags, all versions of the X.509 library described by the model's variables", "why_tests_cant": "Composes every decoder, the exploration, validation and export, for chains of any length and all contents of the cache; no decoder of the program occurs in the conclusion.", "anchors": ["validator/pki/pki.go:AddResource", "validator/pki/pki.go:AddCert", "validator/lib/cert.go:DecodeCertificate", "validator/lib/roa.go:DecodeROA", "cmd/octorpki/octorpki.go:generateROAList"]}
{"id": "C79", "title": "Revocation lists: contents, signature, currency", "statement": "Whenever the octets of a revocation list are accepted, they form one by a grammar stated without the decoder, and the serial numbers taken as revoked are exactly the ones written there, in order; if it passes the check against a certificate, its signature is one with the key in that certificate's octets. The signer is an authority, and a list past its next update is not accepted.", "quantifier": "all byte strings, all keys, every hash function in place of SHA-256", "why_tests_cant": "All byte strings; tests decode a handful of lists.", "anchors": ["validator/pki/pki.go:AddCRL", "validator/pki/pki.go:AddResource", "vendor/github.com/google/certificate-transparency-go/x509/x509.go:ParseDERCRL"]}
{"id": "C80", "title": "Repository mode (manifests not used)", "statement": "When manifests are not used, the run ends on every finite file system; the validator is only given files from the queue and regular files of the directories that certificates name, and everything valid has a chain to a key in a trust anchor locator. The ROAs in the directories of valid CAs are found, and a ROA with another digest than the manifest lists is not valid.", "quantifier": "all caches, directory listings, flags, clocks, start files not marked as trusted", "why_tests_cant": "No test of the project runs this mode; caches and directory trees are unbounded.", "anchors": ["validator/pki/pki.go:Explore", "validator/pki/pki.go:GetNextRepository", "validator/pki/pki.go:ExploreAdd", "sync/lib/fetch.go:GetRepository"]}
{"id": "C81", "title": "Repositories on the information page", "statement": "After a validation, the information page lists every rsync module registered during it exactly once, below the trust anchor locator where it is registered first, and nothing else; there is one list per locator under its name (or its path if the numbers of names and locators differ). The notification address shown is named by a registered certificate together with the module; it is the one that will be used for fetching, and named by a certificate below the same locator.", "quantifier": "all lists of valid certificates per locator, all earlier fetch states, all growth policies of append", "why_tests_cant": "No test covers the registration in mainValidation or the page; loss of an update depends on when append moves the array.", "anchors": ["cmd/octorpki/octorpki.go:mainValidation", "cmd/octorpki/octorpki.go:ServeInfo"]}
{"id": "C82", "title": "The list made by localrpki", "statement": "localrpki lists, for each locator in order and for each valid ROA once, a line for every entry that the ROA's certificate covers, with the AS number, prefix, maximal length and the path of the file the ROA was read from; looking up that path never fails. The authorisations are those of octorpki without its filters. Validation takes place at the time given with -valid.time.", "quantifier": "all caches, decoders, signature verdicts, clocks, flags, orders of map iteration, times", "why_tests_cant": "No test runs localrpki; that the reverse map PathOfResource knows every valid ROA is an invariant of the exploration of unbounded repositories.", "anchors": ["cmd/localrpki/localrpki.go:main", "validator/pki/pki.go:ExploreAdd"]}
{"id": "C83", "title": "Mapping of addresses to directories", "statement": "-map.dir is read as the pairs key=directory between commas, the last one for each key; an address below a key is looked for below its directory whatever the order in which the map is iterated, and an address without a key is its own place.", "quantifier": "all flag values, addresses and iteration orders", "why_tests_cant": "Map iteration order is random; keys that overlap give different results from run to run.", "anchors": ["sync/lib/fetch.go:ParseMapDirectory", "sync/lib/fetch.go:GetLocalPath"]}
{"id": "C84", "title": "Submission of chains by workers", "statement": "However the workers are scheduled, each chain is submitted exactly once, no execution is infinite and none gets stuck; ctrpki hands over, for each locator, one chain per valid certificate.", "quantifier": "all lists of chains, numbers of workers, interleavings, explorations and iteration orders", "why_tests_cant": "Interleavings of goroutines and the choice of select are random; a lost chain shows only in the log of the other side.", "anchors": ["cmd/octorpki/ct.go:SendCertificateTransparency", "cmd/octorpki/ct.go:BatchCertificateTransparency", "cmd/ctrpki/ctrpki.go:BatchCertificateTransparency", "cmd/ctrpki/ctrpki.go:main"]}
{"id": "C85", "title": "Grouping of rsync addresses", "statement": "ReduceMap ends and returns addresses none of which is below another; each has something added below it, and every address added is below one of them.", "quantifier": "all lists of addresses and all orders of map iteration", "why_tests_cant": "Whether an address is lost depends on the order in which it and those below it were added and on the shape of the whole tree.", "anchors": ["sync/lib/utils.go:AddInMap", "sync/lib/utils.go:ReduceMap"]}
{"id": "C86", "title": "The file of the RRDP state", "statement": "The state saved after a round is the state the next round or the next run begins with, whatever the order of map iteration; a file whose writing stopped before its end is noticed and the round begins with no state; reading ends for every file.", "quantifier": "all states with Unicode texts and 64-bit serial numbers, all strict prefixes of the file, all byte strings", "why_tests_cant": "A torn write can stop at any octet, also inside an escape or a character of several octets, and names of files come from the network.", "anchors": ["cmd/octorpki/octorpki.go:LoadRRDPInfo", "cmd/octorpki/octorpki.go:saveRRDPInfo", "cmd/octorpki/octorpki.go:doRRDP"]}
{"id": "C87", "title": "The list of ROAs as text", "statement": "What is written to the output file and served is a JSON text (RFC 8259) that carries every entry of the list in order and the data about it under their names, has no other meaning, and cannot be taken for a list when cut short.", "quantifier": "all lists with Unicode texts, all readings of the text by the grammar, all strict prefixes", "why_tests_cant": "Escaping depends on the single characters and on combinations of octets in names; that no other reading exists is about all readings.", "anchors": ["cmd/octorpki/octorpki.go:output", "cmd/octorpki/octorpki.go:ServeROAs", "vendor/github.com/cloudflare/gortr/prefixfile/prefixfile.go:ROAList"]}
{"id": "C88", "title": "Revocation lists made by CreateCRL are read, attributed, accepted and effective", "statement": "If CreateCRL returns a list, its octets form a CertificateList with the dates, serial numbers (in order), key identifier and number that were asked for, signed over the part it contains; the library reads it back; with a key identifier of 1 to 125 octets the validator attributes it to that key; if that key is valid and is the signer's, AddCRL accepts the list and no certificate it lists becomes valid later.", "quantifier": "all subject names, key identifiers, dates, lists of entries with extensions, numbers of up to 20 octets, signers, and all histories of a validator", "why_tests_cant": "lists of any length with any extensions and any history of the validator; a test makes one list and reads it back with the same library", "anchors": ["validator/lib/crl.go:CreateCRL", "validator/lib/crl.go:CRLAuthKeyId", "validator/pki/pki.go:AddCRL"]}
{"id": "C89", "title": "What is reported of a run of rsync", "statement": "RunRsync reports exactly the lines that name objects (.cer, .mft, .crl, .roa, .gbr), in order, each by the address its name has relative to the source, and marks deletions; the file of a reported address is read where rsync put it.", "quantifier": "all sources, all outputs of rsync, all cache directories", "why_tests_cant": "outputs of any length with any file names; the existing test of FilterMatch looks at two lines", "anchors": ["sync/lib/rsync.go:RunRsync", "sync/lib/rsync.go:FilterMatch", "sync/lib/fetch.go:GetLocalPath"]}
{"id": "C90", "title": "What exploration gives up is reported", "statement": "While exploring, the manager sends a report for every file that it does not accept, naming the file and, by its type, the reason; every certificate that stops being valid does so because of an accepted revocation list or with a report naming the CA and the file that caused it; accepted files are not reported, and reporting changes nothing in the result.", "quantifier": "All caches, decoders, signature oracles, clocks, starting files and flags, all numbers of files; all validator states reachable by any operations.", "why_tests_cant": "Which file is dropped silently depends on the combination of kind, state and synchronisation; a test sees the reports for the files it has.", "anchors": ["validator/pki/pki.go:reportError", "validator/pki/pki.go:reportErrorFile", "validator/pki/pki.go:ExploreAdd", "validator/pki/pki.go:Explore", "validator/pki/pki.go:InvalidateManifestParent", "validator/pki/pki.go:InvalidateCRLParent", "validator/pki/pki.go:ValidateCertificate", "validator/pki/errors.go:NewResourceErrorWrap", "cmd/octorpki/octorpki.go:logCollector"]}
{"id": "C91", "title": "Extensions and key identifiers that are made", "statement": "The extensions the library makes (access information, policies, resources) have the form and criticality of RFC 5280 and RFC 6487 and are read back, alone and together in a certificate; the identifier of a key is the SHA-1 of its subjectPublicKey; a locator that was made can be used.", "quantifier": "all addresses, resources, orders of extensions and keys", "why_tests_cant": "the tests use one address, one policy and one order of extensions", "anchors": ["validator/lib/cert.go:EncodeInfoAccess", "validator/lib/cert.go:EncodePolicyInformation", "validator/lib/cert.go:EncodeIPAddressBlock", "validator/lib/cert.go:EncodeASN", "validator/lib/cert.go:EncodeSIA", "validator/lib/tal.go:HashPublicKey", "validator/lib/tal.go:CreateTAL"]}
{"id": "C92", "title": "Exploration over the remote interface", "statement": "With the remote interface as file seeker (sync/api), exploration gives the results it gives on a cache with the same contents: the same checks are made, everything accepted chains to a trust anchor locator, every resource of a repository is given to the validator once, failures are noticed, and exploration ends.", "quantifier": "all answers of the remote side, files, initial lists, clocks and settings, both modes of exploration", "why_tests_cant": "sync/api has no tests, and the absence of a digest shows only when a remote side and a manifest disagree", "anchors": ["sync/api/fetch.go:FetchFile", "sync/api/fetch.go:GetFile", "sync/api/fetch.go:GetRepository", "validator/pki/pki.go:Explore", "validator/pki/pki.go:GetNextRepository", "validator/pki/pki.go:ExploreAdd"]}
{"id": "C93", "title": "The private operation of RSA", "statement": "For every RSA key, what PrivateEncrypt and SignPKCS1v15 make is undone by the public operation: RSAPublicDecrypt returns the data, the computation by Chinese remainders equals the plain power for any number of primes, the random blinding does not change the result, and the signatures are those of RFC 8017, so that objects and revocation lists signed with the key are accepted.", "quantifier": "all keys with any number of primes, all data, all random numbers", "why_tests_cant": "tests use a handful of keys with two primes; signatures with leading zero octets occur once in 256 times", "anchors": ["validator/lib/cms.go:PrivateEncrypt", "validator/lib/cms.go:RSAPublicDecrypt", "validator/lib/cms.go:EncryptSignatureRSA"]}
{"id": "C94", "title": "Data shared between the goroutines of octorpki", "statement": "Under every interleaving of the validation loop, its fetching workers and any number of HTTP requests, no two goroutines access a field of OctoRPKI at the same time with one of them writing, no lock is released by one who does not hold it, the loop goes on to validation only when the fetching workers have ended, the loop and the requests can always go on, and what is served never gets older.", "quantifier": "all sequences of rounds with any number of jobs, workers and certificates, all sets of requests, all schedules, all behaviours of clients", "why_tests_cant": "the interleavings are unboundedly many, the race detector only sees those that occur, and a client that stops reading is not part of the tests", "anchors": ["cmd/octorpki/octorpki.go:mainLoop", "cmd/octorpki/octorpki.go:generateROAList", "cmd/octorpki/octorpki.go:ServeResources", "cmd/octorpki/octorpki.go:ServeROAs", "cmd/octorpki/octorpki.go:ServeInfo", "cmd/octorpki/octorpki.go:fetchRRDP"]}
{"id": "C95", "title": "What a consumer is told rests on signed octets in the cache", "statement": "Whatever octets are in the cache, as long as the certificates read as trust anchors list addresses of the two families: after any explorations the list is generated without a crash; its text, written or served, signed or not, can be read in one way only; and a router-side consumer that judges any route by what it read is told Valid or Invalid only because of an entry in a ROA that is in the cache as octets, signed by a certificate with a chain of certificates in the cache up to the key written in a locator, all within their validity; for Valid with an origin other than 0 the entry has that origin and a sufficient length. Conversely a route which a valid ROA authorises within the resources of its own certificate is told Valid.", "quantifier": "all caches of octets, all explorations of all locators, all option settings, all lists of locators and names, all documents the text can be read as, all routes", "why_tests_cant": "It composes X.509 and CMS decoding, validation, export, JSON and origin validation over unbounded inputs; a test fixes one repository, one list and some routes.", "anchors": ["validator/pki/pki.go:AddResource", "validator/lib/cert.go:DecodeCertificate", "validator/lib/roa.go:DecodeROA", "cmd/octorpki/octorpki.go:generateROAList", "cmd/octorpki/octorpki.go:ServeROAs", "vendor/github.com/cloudflare/gortr/prefixfile/prefixfile.go", "ov/ov.go:NewOV", "ov/ov.go:Validate"]}
{"id": "C96", "title": "Revocation published in the cache is effective", "statement": "After any exploration, whatever the order in which files were found, no certificate is valid, and none is in the chain of a valid or exported ROA, that is on a revocation list which its issuer published (on the issuer's manifest or named by a certificate it issued), which is in the cache with the listed digest and signed with the key of the issuer's valid certificate. Lists made by the library with the issuer's key are such lists.", "quantifier": "all caches, all explorations and initial files, all positions of the list among the files, all certificates and serial numbers, all option settings", "why_tests_cant": "The list can be found before or after what it revokes, through a manifest or a distribution point, with any other files between; a test fixes one order and one repository.", "anchors": ["validator/pki/pki.go:AddCRL", "validator/pki/pki.go:AddResource", "validator/pki/pki.go:Explore", "validator/pki/pki.go:ExploreAdd", "validator/pki/pki.go:PutFiles", "validator/pki/pki.go:ValidateCertificate"]}
{"id": "C97", "title": "What clients of the server get", "statement": "A list given by /output.json is the one made by the last complete validation; with -output.wait it is given only after a validation was declared stable and it comes from a validation that found no new repositories; a client that presents the tag of what it holds is up to date after every request that is not refused; and what it is told about routes rests on the octets that were in the cache during that validation, whatever was there before.", "quantifier": "all sequences of validations (modules found, caches explored, lists made), all moments at which a request reads the flags and the list, all sequences of requests of a client", "why_tests_cant": "interleavings of requests with the loop over unboundedly many validations, composed with all contents of the cache", "anchors": ["cmd/octorpki/octorpki.go:validationLoop", "cmd/octorpki/octorpki.go:mainValidation", "cmd/octorpki/octorpki.go:setROAList", "cmd/octorpki/octorpki.go:ServeROAs", "cmd/octorpki/octorpki.go:output", "cmd/octorpki/octorpki.go:newROAList"]}
{"id": "C98", "title": "What a correctly run authority publishes is accepted", "statement": "Whatever else is in the cache, a certificate that is in order together with all those above it up to the anchor of a locator (good copies, in time, signed, within the resources of the issuer, on no list of an effective CRL, complete and current manifests), and whose key identifier and location nobody else uses, is valid when exploration is over; its ROA is valid and what the ROA authorises is on the exported list; the files it names and lists are looked at.", "quantifier": "all caches, with any number of other authorities publishing anything, all orders in which files are found, all clocks and both strictness settings", "why_tests_cant": "completeness against arbitrary contents published by others; a test has one repository", "anchors": ["validator/pki/pki.go:Explore", "validator/pki/pki.go:AddCert", "validator/pki/pki.go:ValidateCertificate", "validator/pki/pki.go:AddROA", "validator/pki/pki.go:AddManifest", "validator/pki/pki.go:InvalidateManifestParent", "cmd/octorpki/octorpki.go:generateROAList"]}
{"id": "C99", "title": "RRDP documents as octets", "statement": "The octets of an RRDP document are read as XML says: the tokens are exactly those of the elements, attributes, texts and comments of the document with character references and line ends resolved; octets that are not XML are not read to their end; a notification, snapshot or delta that stops at any octet between the start tag and the end of the end tag of its element is refused, so that an update that succeeds has delivered the contents of complete documents.", "quantifier": "all octet strings, all documents of any size and depth, all cut positions, all callbacks, all earlier sessions and serials", "why_tests_cant": "every octet string and every cut position of every document; a test has a few documents and the tokenizer's states are many", "anchors": ["sync/lib/rrdp.go:ParseRoot", "sync/lib/rrdp.go:ParseNode", "sync/lib/rrdp.go:FetchRRDP", "sync/lib/rrdp_struct.go"]}
{"id": "C100", "title": "Messages of the publication and setup protocols", "statement": "Decoding a message returns it exactly if the octets begin, apart from comments, text and the like, with a complete element of the right name and name space whose version is a readable integer; the attributes are those written, with references resolved, the inner octets are exactly those between the tags, and the contents are the elements directly inside, in order and with their attributes and octets; there is then no error from the inside. What EncodeXMLContent writes of a message is decoded to the same message.", "quantifier": "all octet strings, all five message types, all messages with values of characters that XML allows, all insides of any size and depth", "why_tests_cant": "every octet string, including those with unusual quoting, references, comments and nesting, and every attribute value", "anchors": ["ca/xml.go:DecodeXML", "ca/xml.go:DecodeXMLFull", "ca/xml.go:DecodeXMLCRFull", "ca/xml.go:DecodeXMLPRFull", "ca/xml.go:DecodeInner", "ca/xml.go:NewXMLList", "validator/lib/xml.go:EncodeXMLContent"]}
{"id": "C101", "title": "What a failed or oversized RRDP download leads to", "statement": "A document is used exactly if it arrived completely with status 200 and at most 10^9 octets; nothing beyond one octet more than that is looked at. A response that is too large ends the update, nothing is asked after it, and the error has the text octorpki compares with exactly in this case. The rsync job stays exactly if there is an error, the failover is on and no response was too large. What is asked is the notification file, then the snapshot or the deltas in order, never both.", "quantifier": "all answers of the HTTP client (errors, status codes, bodies of any length, bodies that break off), all limits, callbacks, stored sessions and serials", "why_tests_cant": "bodies of a gigabyte, every place where a download can fail, every error text", "anchors": ["sync/lib/rrdp.go:GetXML", "sync/lib/rrdp.go:FetchRRDP", "sync/lib/errors.go:RRDPError.Error", "cmd/octorpki/octorpki.go:rrdpError", "cmd/octorpki/octorpki.go:fetchRRDP", "cmd/octorpki/octorpki.go:getHTTP"]}
{"id": "C102", "title": "What is in the cache, and so what a consumer is told, comes from the sources", "statement": "After any sequence of RRDP updates, downloads of certificates of TALs and runs of rsync, successful or not, every file in the cache was there before with the same octets or is what a source delivered for its place: the base64 text of an element, with an allowed address, of a document that arrived completely and within the limit; the whole body of a response with status 200 from an HTTP address of the TAL; or a file rsync put below the directory of its address. After an update without error the validator reads what was published. What a consumer of the exported list is told about a route rests on a certified ROA whose octets came this way.", "quantifier": "all sequences of sources, all answers of the HTTP client, all documents, all files rsync may leave, all starting states of the cache", "why_tests_cant": "every order and every failure of downloads, every document and every place in the cache", "anchors": ["cmd/octorpki/octorpki.go:fetchRRDP", "cmd/octorpki/octorpki.go:fetchTAL", "cmd/octorpki/octorpki.go:fetchRsync", "sync/lib/rrdp.go:FetchRRDP", "sync/lib/fetch.go:GetLocalPath", "sync/lib/fetch.go:FetchFile"]}
{"id": "C103", "title": "What the reports of the manager say", "statement": "Every error sent during an exploration has a text, and the tags sent to Sentry with it tell the trust anchor, the type of the error, the file (and the file it was found by) and the identifiers and serial number of the certificate. The text of an error on a certificate determines the type of the error and both key identifiers; the certificate is the one in the reported file. A digest error shows the digest found and the one listed, and they differ. A conflict is reported exactly if the key identifier is taken, and the certificate that has it is named. A resource error lists elements of the certificate that the issuer does not hold, and all of those the issuer does not cover or inherit. Refuted: an expired certificate is shown with the end of its validity; the String method of a certificate shows its routing domain identifiers; the report on a CA given up tells an altered file from a manifest out of date.", "quantifier": "all states of the manager, all files, certificates and decoders, all numbers of steps", "why_tests_cant": "every kind of failure in every position of every repository", "anchors": ["validator/pki/errors.go:Error", "validator/pki/errors.go:SetSentryScope", "validator/pki/errors.go:AddFileErrorInfo", "validator/lib/cert.go:String", "validator/lib/cert.go:ValidateTime", "validator/pki/pki.go:Explore", "cmd/octorpki/octorpki.go:logCollector"]}
{"id": "C104", "title": "Fetches that write into the cache at the same time", "statement": "For any number of RRDP fetches running concurrently, in any order of their system calls and with any splitting of a write: places no element names do not change; when all fetches have ended without error, a place for which all elements have the same octets holds them, and a place only one fetch writes holds the octets of its last element (elements other than withdrawals in deltas, whose errors the code ignores); these octets are at the place the validator reads for the address (if it has the scheme once); every element with the domain of its fetch had the rsync scheme and, unless it is a withdrawal in a delta, no step up in its path; for a place with one writer the order does not matter; at any moment a file with one writer is as before, whole, or a beginning of what is being written. If every fetch gets enough steps, all end, unless one ends the process, after which nothing changes; they end without error if all names may be written and no place of a file is that of a directory. With one fetch for each host, the files below the directory of a host have one writer, except below components ending in rsync:. In general every octet is that of an element for the place at the same position, or zero. Refuted: a file holds the octets of one element (two notification files of one host may leave a mixture).", "quantifier": "all numbers of fetches and elements, all schedules of system calls, all splittings of writes, all starting states", "why_tests_cant": "all interleavings of system calls", "anchors": ["cmd/octorpki/rrdp_fetcher.go:worker", "cmd/octorpki/octorpki.go:WriteRsyncFileOnDisk", "cmd/octorpki/octorpki.go:ReceiveRRDPFileCallback", "cmd/octorpki/octorpki.go:mainRRDP"]}
