#!/usr/bin/env python3
"""Generates rocq/theories/MsgSums.v: the enums of Msg.v as nested sums, with
their Borsh and JSON codecs."""
U = ("unit", [], None)
def variants():
    return {}
# enum: name, cite, list of (constructor, [ (field json name or None, argtype, borsh codec, json codec, optional) ], kind)
# kind: 'unit' | 'new' (newtype) | 'struct' | 'tuple'
S = ("bytes", "c_string", "js_string")
B = ("bytes", "c_bytes", "js_hex")
def f(name, t, opt=False): return (name, t, opt)
PH = ("phase", "c_phase", "js_phase")
NR = ("nsm_response", "c_nsm_response", "js_nsm_response")
VE = ("versioned_envelope", "c_versioned_envelope", "js_versioned_envelope")
P2 = ("p256_error", "c_p256_error", "js_p256_error")
AP = ("approval", "c_approval", "js_approval")
U16 = ("N", "c_u16", "js_u16")
U32 = ("N", "c_u32", "js_u32")
BO = ("bool", "c_bool", "js_bool")
def unit(c, j=None): return (c, "unit", [], j or c)
def new(c, t, j=None): return (c, "new", [f(None, t)], j or c)
def struct(c, fs, j=None): return (c, "struct", fs, j or c)
def tup(c, ts, j=None): return (c, "tuple", [f(None, t) for t in ts], j or c)
ea = [f("expected", S), f("actual", S)]
perr = [unit("InvalidShare"), unit("ReconstructionErrorEmptySecret"), unit("ReconstructionErrorIncorrectPubKey"),
 unit("IOError"), new("InvalidManifestApproval", AP), unit("NotEnoughApprovals"), new("NoMatchingRoute", PH),
 struct("InvalidPivotHash", ea), unit("OversizeMsg"), unit("InvalidMsg"), unit("EnclaveClient"), unit("DecryptionFailed"),
 unit("InvalidPrivateKey"), unit("FailedToParseFromString"), unit("BadEphemeralKeyPath"), unit("CannotModifyPostPivotStatic"),
 new("FailedToGetEphemeralKey", P2), unit("FailedToPutEphemeralKey"), unit("CannotRotateNonExistentEphemeralKey"),
 new("CannotDeleteEphemeralKey", S), new("FailedToGetQuorumKey", P2), unit("FailedToPutQuorumKey"),
 unit("FailedToGetManifestEnvelope"), unit("FailedToPutManifestEnvelope"), unit("FailedToPutPivot"),
 unit("AppClientRecvTimeout"), unit("AppClientRecvInterrupted"), unit("AppClientRecvConnectionClosed"),
 new("AppClientConnectError", S), new("AppClientSendError", S), new("AppClientError", S),
 unit("OversizedPayload"), unit("ProtocolMsgDeserialization"), unit("BadShareSetApprovals"), unit("CouldNotVerifyApproval"),
 unit("NotShareSetMember"), unit("NotManifestSetMember"), new("P256Error", P2), new("InvalidP256DRKey", P2),
 unit("IncorrectSecretLen"), new("QosAttestError", S), struct("DifferentQuorumKey", ea), struct("DifferentManifestSet", ea),
 struct("DifferentNamespaceName", ea), struct("LowNonce", [f("expected", U32), f("actual", U32)]), struct("DifferentPcr3", ea),
 unit("MissingEphemeralKey"), unit("InvalidEphemeralKey"), unit("InvalidEncryptedQuorumKeySignature"),
 unit("EncryptedQuorumKeyInvalidLen"), unit("InvalidQuorumSecret"), unit("WrongQuorumKey"),
 tup("InvalidStateTransition", [PH, PH]), unit("DuplicateApproval"), struct("DifferentManifest", ea), new("QosCrypto", S),
 unit("PoolExpandError"), new("InvalidPivotEnv", S), unit("MissingLiveEphemeralKey"), unit("DuplicateQuorumMember"),
 unit("LegacyGenesisNotSupported")]
p256 = [new("PQosHex", S, "QosHex"), new("PIOError", S, "IOError")] + [unit(x) for x in """FailedToSerializeEnvelope FailedToDeserializeEnvelope
 AesGcm256DecryptError AesGcm256EncryptError FailedToCreateAes256GcmCipher FailedToDeserializePublicKey
 FailedToCoercePublicKeyToIntendedLength FailedToCoerceNonceToIntendedLength FailedToDeserializeSignature FailedSignatureVerification
 FailedToReadSecret FailedToReadPublicKey EncodedPublicKeyTooLong EncodedPublicKeyTooShort HkdfExpansionFailed MasterSeedInvalidUtf8
 MasterSeedInvalidLength InvalidMasterSeed CannotCoerceLenToU8""".split()]
code = [unit("Nsm" + x, x) for x in "Success InvalidArgument InvalidIndex InvalidResponse ReadOnlyIndex InvalidOperation BufferTooSmall InputTooLarge InternalError".split()]
digest = [unit(x) for x in "SHA256 SHA384 SHA512".split()]
SET = ("list N", "c_set_u16", "js_set_u16")
nsm = [struct("RDescribePCR", [f("lock", BO), f("data", B)], "describePCR"), struct("RExtendPCR", [f("data", B)], "extendPCR"),
 unit("RLockPCR", "lockPCR"), unit("RLockPCRs", "lockPCRs"),
 struct("RDescribeNSM", [f("version_major", U16), f("version_minor", U16), f("version_patch", U16), f("module_id", S), f("max_pcrs", U16), f("locked_pcrs", SET), f("digest", ("nsm_digest", "c_digest", "js_digest"))], "describeNSM"),
 struct("RAttestation", [f("document", B)], "attestation"), struct("RGetRandom", [f("random", B)], "getRandom"),
 new("RError", ("nsm_error_code", "c_nsm_code", "js_nsm_code"), "error")]
GS = ("genesis_set", "c_genesis_set", "js_genesis_set")
GO = ("genesis_output", "c_genesis_output", "js_genesis_output")
def opt(t): return ("option %s" % t[0], "(c_option %s)" % t[1], t[2])
msg = [new("ProtocolErrorResponse", ("perr", "c_perr", "js_perr"), "protocolErrorResponse"), unit("StatusRequest", "statusRequest"),
 new("StatusResponse", PH, "statusResponse"),
 struct("BootStandardRequest", [f("manifest_envelope", VE), f("pivot", B)], "bootStandardRequest"),
 struct("BootStandardResponse", [f("nsm_response", NR)], "bootStandardResponse"),
 struct("BootGenesisRequest", [f("set", GS), f("dr_key", opt(B), True)], "bootGenesisRequest"),
 struct("BootGenesisResponse", [f("nsm_response", NR), f("genesis_output", GO)], "bootGenesisResponse"),
 struct("ProvisionRequest", [f("share", B), f("approval", AP)], "provisionRequest"),
 struct("ProvisionResponse", [f("reconstructed", BO)], "provisionResponse"),
 struct("ProxyRequest", [f("data", B)], "proxyRequest"), struct("ProxyResponse", [f("data", B)], "proxyResponse"),
 unit("LiveAttestationDocRequest", "liveAttestationDocRequest"),
 struct("LiveAttestationDocResponse", [f("nsm_response", NR), f("manifest_envelope", opt(VE), True)], "liveAttestationDocResponse"),
 struct("BootKeyForwardRequest", [f("manifest_envelope", VE), f("pivot", B)], "bootKeyForwardRequest"),
 struct("BootKeyForwardResponse", [f("nsm_response", NR)], "bootKeyForwardResponse"),
 struct("ExportKeyRequest", [f("manifest_envelope", VE), f("cose_sign1_attestation_doc", B)], "exportKeyRequest"),
 struct("ExportKeyResponse", [f("encrypted_quorum_key", B), f("signature", B)], "exportKeyResponse"),
 struct("InjectKeyRequest", [f("encrypted_quorum_key", B), f("signature", B)], "injectKeyRequest"),
 unit("InjectKeyResponse", "injectKeyResponse"), unit("ManifestEnvelopeRequest", "manifestEnvelopeRequest"),
 struct("ManifestEnvelopeResponse", [f("manifest_envelope", opt(VE), True)], "manifestEnvelopeResponse"),
 unit("VersionRequest", "versionRequest"), struct("VersionResponse", [f("version", S), f("commit", S)], "versionResponse"),
 ("BootStandardJsonEnvelopeRequest", "skip", [f("manifest_envelope", ("versioned_envelope", "c_json_envelope", None)), f("pivot", B)], None)]
phase = [unit(x) for x in "UnrecoverableError WaitingForBootInstruction GenesisBooted WaitingForQuorumShards QuorumKeyProvisioned WaitingForForwardedKey".split()]

def vtype(v, rec=False):
    c, k, fs, j = v
    ts = [x[1][0] for x in fs]
    if not ts: return "unit"
    r = ts[-1] if not rec else "(%s * unit)" % ts[-1]
    for t in reversed(ts[:-1]): r = "(%s * %s)" % (t, r)
    return r
def pat(v, names):
    if not names: return "_"
    r = names[-1]
    for n in reversed(names[:-1]): r = "(%s, %s)" % (n, r)
    return r
def tupv(names):
    if not names: return "tt"
    r = names[-1]
    for n in reversed(names[:-1]): r = "(%s, %s)" % (n, r)
    return r
def inj(i, x): return "inr (" * i + "inl %s" % x + ")" * i
def bcodec(v):
    cs = [x[1][1] for x in v[2]]
    if not cs: return "c_unit"
    r = cs[-1]
    for c in reversed(cs[:-1]): r = "(c_pair %s %s)" % (c, r)
    return r
def enum(ty, vs, cite, cname):
    o = []
    o.append("(** %s *)" % cite)
    o.append("Definition %s_sum : Type := %s." % (ty, " + (".join("(%s)" % vtype(v) for v in vs) + " + Empty_set" + ")" * (len(vs)-1)))
    o.append("Definition %s_of (s : %s_sum) : %s :=\n  match s with" % (ty, ty, ty))
    for i, v in enumerate(vs):
        ns = ["x%d" % k for k in range(len(v[2]))]
        o.append("  | %s => %s%s" % (inj(i, pat(v, ns)), v[0], "".join(" " + n for n in ns)))
    o.append("  | %s => match e return %s with end\n  end." % ("inr (" * (len(vs)-1) + "inr e" + ")" * (len(vs)-1), ty))
    o.append("Definition %s_to (a : %s) : %s_sum :=\n  match a with" % (ty, ty, ty))
    for i, v in enumerate(vs):
        ns = ["x%d" % k for k in range(len(v[2]))]
        t = tupv(ns)
        o.append("  | %s%s => %s" % (v[0], "".join(" " + n for n in ns), inj(i, t)))
    o.append("  end.")
    o.append("Lemma %s_of_to a : %s_of (%s_to a) = a.\nProof. destruct a; reflexivity. Qed." % (ty, ty, ty))
    o.append("Lemma %s_to_of s : %s_to (%s_of s) = s.\nProof. cbv [%s_sum] in s. repeat (destruct s as [s|s]; [repeat match goal with p : (_ * _)%%type |- _ => destruct p | u : unit |- _ => destruct u end; reflexivity|]). destruct s. Qed." % (ty, ty, ty, ty))
    o.append("Definition t_%s : tcodec %s_sum :=\n  %s." % (ty, ty, " (".join("t_cons %s" % bcodec(v) for v in vs) + " t_nil" + ")" * (len(vs)-1)))
    o.append("Definition %s : codec %s := c_iso %s_of %s_to (c_enum t_%s)." % (cname, ty, ty, ty, ty))
    return "\n".join(o) + "\n"
def jvar(v):
    c, k, fs, j = v
    n = '(bs "%s")' % j
    if k == "unit": return "v_unit %s" % n
    if k == "new": return "v_new %s %s" % (n, fs[0][1][2])
    if k == "tuple": return "v_new %s (js_tuple2 %s %s)" % (n, fs[0][1][2], fs[1][1][2])
    if k == "skip": return "v_skip"
    r = None
    for name, t, o in reversed(fs):
        nn = '(bs "%s")' % name
        if r is None: r = "(%s %s %s)" % ("f_opt1" if o else "f_one", nn, t[2])
        else: r = "(%s %s %s %s)" % ("f_opt" if o else "f_cons", nn, t[2], r)
    return "v_new %s (js_struct false %s)" % (n, r)
def jenum(ty, vs, cite, cname):
    return ("(** %s *)\nDefinition v_%s : jvariants %s_sum :=\n  %s.\nDefinition %s : jcodec %s := js_iso %s_of %s_to (js_enum v_%s).\n"
      % (cite, ty, ty, "\n  (".join(jvar(v) for v in vs) + " v_nil" + ")" * (len(vs)-1), cname, ty, ty, ty, ty))
ENUMS = [("phase", phase, "state.rs:21-52", "c_phase", "js_phase"), ("nsm_error_code", code, "qos_nsm/src/types.rs:20-46", "c_nsm_code", "js_nsm_code"),
 ("nsm_digest", digest, "qos_nsm/src/types.rs NsmDigest", "c_digest", "js_digest"), ("nsm_response", nsm, "qos_nsm/src/types.rs NsmResponse", "c_nsm_response", "js_nsm_response"),
 ("p256_error", p256, "qos_p256/src/lib.rs:45-95", "c_p256_error", "js_p256_error"), ("perr", perr, "error.rs:23-211", "c_perr", "js_perr"),
 ("msg", msg, "msg.rs:81-258", "c_msg", "js_msg")]
import sys
if __name__ == "__main__":
    what = sys.argv[1]
    for ty, vs, cite, c, j in ENUMS:
        if what == "borsh":
            if ty == "nsm_response": print("@SET@")
            if ty == "msg": print("@GEN@")
            print(enum(ty, vs, cite, c))
        else:
            if ty == "nsm_response": print("@SET@")
            if ty == "msg": print("@GEN@")
            if ty == "phase": print("@PHASE@"); continue
            print(jenum(ty, vs, cite, j))
