-Q theories Verif
theories/Common/Bits.v
theories/B32/Model.v
theories/B32/Spec.v
theories/B32/Proofs.v
theories/B32/Props.v
theories/B64/Model.v
theories/B64/Spec.v
theories/B64/Proofs.v
theories/B64/Props.v
theories/Url/Model.v
theories/Url/Spec.v
theories/Url/Proofs.v
theories/Url/Props.v
theories/Uuid/Model.v
theories/Uuid/Spec.v
theories/Uuid/Proofs.v
theories/Uuid/Props.v
theories/Sort/Model.v
theories/Sort/Spec.v
theories/Sort/Proofs.v
theories/Sort/Props.v
theories/Kmp/Model.v
theories/Kmp/Spec.v
theories/Kmp/Proofs.v
theories/Kmp/Props.v
theories/Str/Model.v
theories/Str/Spec.v
theories/Str/Proofs.v
theories/Str/Props.v
theories/Lru/Model.v
theories/Lru/Spec.v
theories/Lru/Proofs.v
theories/Lru/Props.v
theories/Lfu/Model.v
theories/Lfu/Spec.v
theories/Lfu/Buckets.v
theories/Lfu/Proofs.v
theories/Lfu/Props.v
theories/Btrie/Model.v
theories/Btrie/Spec.v
theories/Btrie/Words.v
theories/Btrie/Abs.v
theories/Btrie/Proofs.v
theories/Btrie/Props.v
theories/Confstr/Model.v
theories/Confstr/Spec.v
theories/Confstr/Proofs.v
theories/Confstr/Props.v
theories/Flow/Model.v
theories/Flow/Spec.v
theories/Flow/Proofs.v
theories/Flow/Props.v
theories/Hooks/Model.v
theories/Hooks/Spec.v
theories/Hooks/Proofs.v
theories/Hooks/Props.v
theories/Cht/Model.v
theories/Cht/Spec.v
theories/Cht/Proofs.v
theories/Cht/Props.v
theories/Dynbuf/Model.v
theories/Dynbuf/Spec.v
theories/Dynbuf/Proofs.v
theories/Dynbuf/Props.v
theories/Tok/Model.v
theories/Tok/Spec.v
theories/Tok/Proofs.v
theories/Tok/Props.v
theories/Jobq/Model.v
theories/Jobq/Spec.v
theories/Jobq/Proofs.v
theories/Jobq/Props.v
theories/Ipool/Model.v
theories/Ipool/Spec.v
theories/Ipool/Proofs.v
theories/Ipool/Props.v
theories/Intern/Model.v
theories/Intern/Spec.v
theories/Intern/Proofs.v
theories/Intern/Props.v
theories/Sem/Model.v
theories/Sem/Spec.v
theories/Sem/Proofs.v
theories/Sem/Props.v
theories/Hll/Model.v
theories/Hll/Spec.v
theories/Hll/Proofs.v
theories/Hll/Props.v
theories/Frrh/Model.v
theories/Frrh/Spec.v
theories/Frrh/Proofs.v
theories/Frrh/Props.v
theories/Hash/Model.v
theories/Hash/Spec.v
theories/Hash/Proofs.v
theories/Hash/Props.v
theories/Skip/Model.v
theories/Skip/Spec.v
theories/Skip/Rep.v
theories/Skip/Proofs.v
theories/Skip/Proofs2.v
theories/Skip/Props.v
theories/Logic/Model.v
theories/Logic/Spec.v
theories/Logic/Proofs.v
theories/Logic/Proofs2.v
theories/Logic/Proofs3.v
theories/Logic/Proofs4.v
theories/Logic/Props.v
theories/Cluster/Model.v
theories/Cluster/Spec.v
theories/Cluster/Proofs.v
theories/Cluster/Proofs2.v
theories/Cluster/Proofs3.v
theories/Cluster/Proofs4.v
theories/Cluster/Props.v
theories/Http1/Model.v
theories/Http1/Spec.v
theories/Http1/Proofs.v
theories/Http1/Proofs2.v
theories/Http1/Proofs3.v
theories/Http1/Proofs4.v
theories/Http1/Props.v
theories/Json/Model.v
theories/Json/Spec.v
theories/Json/Proofs.v
theories/Json/Proofs2.v
theories/Json/Proofs3.v
theories/Json/Proofs4.v
theories/Json/Proofs5.v
theories/Json/Proofs6.v
theories/Json/Proofs7.v
theories/Json/Proofs8.v
theories/Json/Props.v
theories/Linkh/Model.v
theories/Linkh/Spec.v
theories/Linkh/Proofs.v
theories/Linkh/Proofs2.v
theories/Linkh/Proofs3.v
theories/Linkh/Proofs4.v
theories/Linkh/Props.v
theories/Rest/Model.v
theories/Rest/Spec.v
theories/Rest/Proofs.v
theories/Rest/Proofs2.v
theories/Rest/Proofs3.v
theories/Rest/Proofs4.v
theories/Rest/Props.v
theories/Head/Model.v
theories/Head/Spec.v
theories/Head/Proofs.v
theories/Head/Proofs2.v
theories/Head/Proofs3.v
theories/Head/Proofs4.v
theories/Head/Proofs5.v
theories/Head/Proofs6.v
theories/Head/Proofs7.v
theories/Head/Props.v
theories/Cookie/Model.v
theories/Cookie/Spec.v
theories/Cookie/Proofs.v
theories/Cookie/Proofs2.v
theories/Cookie/Proofs3.v
theories/Cookie/Proofs4.v
theories/Cookie/Proofs5.v
theories/Cookie/Props.v
theories/Reply/Model.v
theories/Reply/Spec.v
theories/Reply/Proofs.v
theories/Reply/Proofs2.v
theories/Reply/Proofs3.v
theories/Reply/Proofs4.v
theories/Reply/Proofs5.v
theories/Reply/Props.v
theories/Membuf/Model.v
theories/Membuf/Spec.v
theories/Membuf/Proofs.v
theories/Membuf/Proofs2.v
theories/Membuf/Proofs3.v
theories/Membuf/Proofs4.v
theories/Membuf/Props.v
theories/Pack/Model.v
theories/Pack/Spec.v
theories/Pack/Proofs.v
theories/Pack/Proofs2.v
theories/Pack/Proofs3.v
theories/Pack/Props.v
theories/Logs/Model.v
theories/Logs/Spec.v
theories/Logs/Proofs.v
theories/Logs/Proofs2.v
theories/Logs/Proofs3.v
theories/Logs/Proofs4.v
theories/Logs/Proofs5.v
theories/Logs/Proofs6.v
theories/Logs/Props.v
theories/Timer/Model.v
theories/Timer/Spec.v
theories/Timer/Proofs.v
theories/Timer/Proofs2.v
theories/Timer/Proofs3.v
theories/Timer/Proofs4.v
theories/Timer/Proofs5.v
theories/Timer/Props.v
theories/Rsock/Model.v
theories/Rsock/Spec.v
theories/Rsock/Proofs.v
theories/Rsock/Proofs2.v
theories/Rsock/Proofs3.v
theories/Rsock/Proofs4.v
theories/Rsock/Proofs5.v
theories/Rsock/Proofs6.v
theories/Rsock/Proofs7.v
theories/Rsock/Props.v
theories/Alpn/Model.v
theories/Alpn/Spec.v
theories/Alpn/Proofs.v
theories/Alpn/Proofs2.v
theories/Alpn/Props.v
theories/Mkdir/Model.v
theories/Mkdir/Spec.v
theories/Mkdir/Proofs.v
theories/Mkdir/Proofs2.v
theories/Mkdir/Props.v
theories/Bit/Model.v
theories/Bit/Spec.v
theories/Bit/Proofs.v
theories/Bit/Proofs2.v
theories/Bit/Props.v
theories/Lockfile/Model.v
theories/Lockfile/Spec.v
theories/Lockfile/Proofs.v
theories/Lockfile/Props.v
