(** * The repositories in tests/metadata/consistent-snapshot-true, copied *)
From Coq Require Import String List.
From Verif Require Import Base.
Import ListNotations.
Open Scope string_scope.
Open Scope list_scope.

(* 1.root.json, first in 0 *)
Definition data_0 : bytes := "{
  ""signatures"": [
    {
      ""keyid"": ""ce72db3f938914205461a415c9b7b91267a2079df991fd6283aa8461988c1add"",
      ""sig"": ""104eb78cba674adfc7ade1d4396c99466a7d4480e50aab89df53117faffd3d4d4ea87833fe6f83b8dc7f6e1e4a62c0329244c6e5f910627772df3c4d61a8900f""
    }
  ],
  ""signed"": {
    ""_type"": ""root"",
    ""consistent_snapshot"": true,
    ""expires"": ""2100-01-01T00:00:00Z"",
    ""keys"": {
      ""289e5a9e71afd7909326aa4caea92f7557ee0e2283d8c31f0c3401ce67248a45"": {
        ""keyid_hash_algorithms"": [
          ""sha256"",
          ""sha512""
        ],
        ""keytype"": ""ed25519"",
        ""keyval"": {
          ""public"": ""d482fa4805a50870aa1356ace6b764f7ab47ed4dc38f49b1a189afa25f179e94""
        },
        ""scheme"": ""ed25519""
      },
      ""808aa256a8172bb0cb961767c6768e55ccf732c99afccc6145752d7a328b7937"": {
        ""keyid_hash_algorithms"": [
          ""sha256"",
          ""sha512""
        ],
        ""keytype"": ""ed25519"",
        ""keyval"": {
          ""public"": ""62f71f99c788f16bcdc8bb252455e3a690350e4ddea5a6aab1f9a3aaabcf369a""
        },
        ""scheme"": ""ed25519""
      },
      ""aa3255b4e8e17e566d2bdbea0e5842978f9fa1d2fa9ec76ae76b146164acbfc8"": {
        ""keyid_hash_algorithms"": [
          ""sha256"",
          ""sha512""
        ],
        ""keytype"": ""ed25519"",
        ""keyval"": {
          ""public"": ""8656ad20568cd3534c405e4d9a84b0c6e6163f7f66434df77416502835b9b160""
        },
        ""scheme"": ""ed25519""
      },
      ""ce72db3f938914205461a415c9b7b91267a2079df991fd6283aa8461988c1add"": {
        ""keyid_hash_algorithms"": [
          ""sha256"",
          ""sha512""
        ],
        ""keytype"": ""ed25519"",
        ""keyval"": {
          ""public"": ""bca152214dbfd3e7a1b7a7b3e2cc179fb00520fd7212c8a60ba99f14dfc0e1ca""
        },
        ""scheme"": ""ed25519""
      }
    },
    ""roles"": {
      ""root"": {
        ""keyids"": [
          ""ce72db3f938914205461a415c9b7b91267a2079df991fd6283aa8461988c1add""
        ],
        ""threshold"": 1
      },
      ""snapshot"": {
        ""keyids"": [
          ""289e5a9e71afd7909326aa4caea92f7557ee0e2283d8c31f0c3401ce67248a45""
        ],
        ""threshold"": 1
      },
      ""targets"": {
        ""keyids"": [
          ""808aa256a8172bb0cb961767c6768e55ccf732c99afccc6145752d7a328b7937""
        ],
        ""threshold"": 1
      },
      ""timestamp"": {
        ""keyids"": [
          ""aa3255b4e8e17e566d2bdbea0e5842978f9fa1d2fa9ec76ae76b146164acbfc8""
        ],
        ""threshold"": 1
      }
    },
    ""spec_version"": ""1.0"",
    ""version"": 1
  }
}".

(* 1.snapshot.json, first in 0 *)
Definition data_1 : bytes := "{
  ""signatures"": [
    {
      ""keyid"": ""289e5a9e71afd7909326aa4caea92f7557ee0e2283d8c31f0c3401ce67248a45"",
      ""sig"": ""4b1d5d95b627df2724ac1cfaac5c724b1ff30417e79806b3b4bbf6b2bc82d503a550b67cf61c6d6ba75c946c83f01d37e5b91a7e523347f031a6e5c911ec9b0e""
    }
  ],
  ""signed"": {
    ""_type"": ""snapshot"",
    ""expires"": ""2100-01-01T00:00:00Z"",
    ""meta"": {
      ""targets.json"": {
        ""hashes"": {
          ""sha256"": ""6f3dfc94b76f43571cb0ae35a2624059fc423c920c983d4d4be65a48e5b1e0f4""
        },
        ""length"": 573,
        ""version"": 1
      }
    },
    ""spec_version"": ""1.0"",
    ""version"": 1
  }
}".

(* 1.targets.json, first in 0 *)
Definition data_2 : bytes := "{
  ""signatures"": [
    {
      ""keyid"": ""808aa256a8172bb0cb961767c6768e55ccf732c99afccc6145752d7a328b7937"",
      ""sig"": ""4c52ea661f1d5177a0c8d2b2f1187fbdc41e3bf2e25d134a89c7955317c783f36de6c224121f643916115a46061769f527465b23a481dd14c26eec4b58342607""
    }
  ],
  ""signed"": {
    ""_type"": ""targets"",
    ""expires"": ""2100-01-01T00:00:00Z"",
    ""spec_version"": ""1.0"",
    ""targets"": {
      ""0"": {
        ""hashes"": {
          ""sha256"": ""5feceb66ffc86f38d952786c6d696c79c2dbc239dd4e91b46729d73a27fb57e9""
        },
        ""length"": 1
      }
    },
    ""version"": 1
  }
}".

(* timestamp.json, first in 0 *)
Definition data_3 : bytes := "{
  ""signatures"": [
    {
      ""keyid"": ""aa3255b4e8e17e566d2bdbea0e5842978f9fa1d2fa9ec76ae76b146164acbfc8"",
      ""sig"": ""3664d4944a7c0fc5c1ddeb829902d18dd4173603837e9d255506b549c19abd5c74c58da9b9fea477e8d1ce161469fb3477a94bab0c901b2d8008f422fe518207""
    }
  ],
  ""signed"": {
    ""_type"": ""timestamp"",
    ""expires"": ""2100-01-01T00:00:00Z"",
    ""meta"": {
      ""snapshot.json"": {
        ""hashes"": {
          ""sha256"": ""883455651609d170a3ff7cf7bade58edc90dd521a70e311045e1be13a83f23b0""
        },
        ""length"": 606,
        ""version"": 1
      }
    },
    ""spec_version"": ""1.0"",
    ""version"": 1
  }
}".

(* targets/5feceb66ffc86f38d952786c6d696c79c2dbc239dd4e91b46729d73a27fb57e9.0, first in 0 *)
Definition data_4 : bytes := "0".

(* 2.root.json, first in 1 *)
Definition data_5 : bytes := "{
  ""signatures"": [
    {
      ""keyid"": ""ce72db3f938914205461a415c9b7b91267a2079df991fd6283aa8461988c1add"",
      ""sig"": ""e560f386c0c270bb44cedda965ad21526e65162b41a2c30d84fb3a80f58913432e8dc74e5e7b0635ccdf51a2b951dae3b0ba28b4aac4088641a2b2cd2933dd04""
    },
    {
      ""keyid"": ""b2403f96ae9b1089d8cbc15bbc35e9acbacd7984571f951b43aab56aedcfa84f"",
      ""sig"": ""7ac71619b21fe3a076fbbf3e17f92177c5374f005c32f1818e7c92eee107e3c726ccf906e800878035a9caf7679610147d72cb515cd76164b08b5c8bf93c0f0e""
    }
  ],
  ""signed"": {
    ""_type"": ""root"",
    ""consistent_snapshot"": true,
    ""expires"": ""2100-01-01T00:00:00Z"",
    ""keys"": {
      ""289e5a9e71afd7909326aa4caea92f7557ee0e2283d8c31f0c3401ce67248a45"": {
        ""keyid_hash_algorithms"": [
          ""sha256"",
          ""sha512""
        ],
        ""keytype"": ""ed25519"",
        ""keyval"": {
          ""public"": ""d482fa4805a50870aa1356ace6b764f7ab47ed4dc38f49b1a189afa25f179e94""
        },
        ""scheme"": ""ed25519""
      },
      ""808aa256a8172bb0cb961767c6768e55ccf732c99afccc6145752d7a328b7937"": {
        ""keyid_hash_algorithms"": [
          ""sha256"",
          ""sha512""
        ],
        ""keytype"": ""ed25519"",
        ""keyval"": {
          ""public"": ""62f71f99c788f16bcdc8bb252455e3a690350e4ddea5a6aab1f9a3aaabcf369a""
        },
        ""scheme"": ""ed25519""
      },
      ""aa3255b4e8e17e566d2bdbea0e5842978f9fa1d2fa9ec76ae76b146164acbfc8"": {
        ""keyid_hash_algorithms"": [
          ""sha256"",
          ""sha512""
        ],
        ""keytype"": ""ed25519"",
        ""keyval"": {
          ""public"": ""8656ad20568cd3534c405e4d9a84b0c6e6163f7f66434df77416502835b9b160""
        },
        ""scheme"": ""ed25519""
      },
      ""b2403f96ae9b1089d8cbc15bbc35e9acbacd7984571f951b43aab56aedcfa84f"": {
        ""keyid_hash_algorithms"": [
          ""sha256"",
          ""sha512""
        ],
        ""keytype"": ""ed25519"",
        ""keyval"": {
          ""public"": ""153986a7370e002f377dd68797e7466c421180c1571e233de2f8ab41c8af4f54""
        },
        ""scheme"": ""ed25519""
      }
    },
    ""roles"": {
      ""root"": {
        ""keyids"": [
          ""b2403f96ae9b1089d8cbc15bbc35e9acbacd7984571f951b43aab56aedcfa84f""
        ],
        ""threshold"": 1
      },
      ""snapshot"": {
        ""keyids"": [
          ""289e5a9e71afd7909326aa4caea92f7557ee0e2283d8c31f0c3401ce67248a45""
        ],
        ""threshold"": 1
      },
      ""targets"": {
        ""keyids"": [
          ""808aa256a8172bb0cb961767c6768e55ccf732c99afccc6145752d7a328b7937""
        ],
        ""threshold"": 1
      },
      ""timestamp"": {
        ""keyids"": [
          ""aa3255b4e8e17e566d2bdbea0e5842978f9fa1d2fa9ec76ae76b146164acbfc8""
        ],
        ""threshold"": 1
      }
    },
    ""spec_version"": ""1.0"",
    ""version"": 2
  }
}".

(* 2.snapshot.json, first in 1 *)
Definition data_6 : bytes := "{
  ""signatures"": [
    {
      ""keyid"": ""289e5a9e71afd7909326aa4caea92f7557ee0e2283d8c31f0c3401ce67248a45"",
      ""sig"": ""c3eaa4ff63e189db79bac83d03ba6ac4fce89202535a3634ff9ec1df8a77537b01ada21cfd7f7426a918047e86145f60cafbd451142f382a4618c0f27b19d207""
    }
  ],
  ""signed"": {
    ""_type"": ""snapshot"",
    ""expires"": ""2100-01-01T00:00:00Z"",
    ""meta"": {
      ""targets.json"": {
        ""hashes"": {
          ""sha256"": ""5975a125ea2a25f4ef671597937c0ed2aee4a3d403c3b4f28c3b265d3acae79f""
        },
        ""length"": 733,
        ""version"": 2
      }
    },
    ""spec_version"": ""1.0"",
    ""version"": 2
  }
}".

(* 2.targets.json, first in 1 *)
Definition data_7 : bytes := "{
  ""signatures"": [
    {
      ""keyid"": ""808aa256a8172bb0cb961767c6768e55ccf732c99afccc6145752d7a328b7937"",
      ""sig"": ""286234d725c777e3b7361af91d92e509f83d9c9e53feb7daad291f34e49557af418716bc7bf88901fd1beb0d580848516cb7c1a2623d526b8d0c68d67624e80f""
    }
  ],
  ""signed"": {
    ""_type"": ""targets"",
    ""expires"": ""2100-01-01T00:00:00Z"",
    ""spec_version"": ""1.0"",
    ""targets"": {
      ""0"": {
        ""hashes"": {
          ""sha256"": ""5feceb66ffc86f38d952786c6d696c79c2dbc239dd4e91b46729d73a27fb57e9""
        },
        ""length"": 1
      },
      ""1"": {
        ""hashes"": {
          ""sha256"": ""6b86b273ff34fce19d6b804eff5a3f5747ada4eaa22f1d49c01e52ddb7875b4b""
        },
        ""length"": 1
      }
    },
    ""version"": 2
  }
}".

(* timestamp.json, first in 1 *)
Definition data_8 : bytes := "{
  ""signatures"": [
    {
      ""keyid"": ""aa3255b4e8e17e566d2bdbea0e5842978f9fa1d2fa9ec76ae76b146164acbfc8"",
      ""sig"": ""9a83f1f85472bd01726739d63bbc95b2ac5bb7146cfe73debfb6379e2aca2a30158b1420436c2f82f080d10e4b27bcbfdfcb1c93501416edc3ae73d6ad5c760d""
    }
  ],
  ""signed"": {
    ""_type"": ""timestamp"",
    ""expires"": ""2100-01-01T00:00:00Z"",
    ""meta"": {
      ""snapshot.json"": {
        ""hashes"": {
          ""sha256"": ""57a4211414ea2fd5304683ad93b7187ef4145c98df54293389b8d978d98e5cce""
        },
        ""length"": 606,
        ""version"": 2
      }
    },
    ""spec_version"": ""1.0"",
    ""version"": 2
  }
}".

(* targets/6b86b273ff34fce19d6b804eff5a3f5747ada4eaa22f1d49c01e52ddb7875b4b.1, first in 1 *)
Definition data_9 : bytes := "1".

(* 3.root.json, first in 2 *)
Definition data_10 : bytes := "{
  ""signatures"": [
    {
      ""keyid"": ""b2403f96ae9b1089d8cbc15bbc35e9acbacd7984571f951b43aab56aedcfa84f"",
      ""sig"": ""475436056dca79fd151ae830ad2f4dbc7ecc5b146a79319c20a1167d4f214047d8f3847d1cda4ccd32a48acb13acbea55ba7e8254cffaa07e3de9ecdd0c13d03""
    }
  ],
  ""signed"": {
    ""_type"": ""root"",
    ""consistent_snapshot"": true,
    ""expires"": ""2100-01-01T00:00:00Z"",
    ""keys"": {
      ""289e5a9e71afd7909326aa4caea92f7557ee0e2283d8c31f0c3401ce67248a45"": {
        ""keyid_hash_algorithms"": [
          ""sha256"",
          ""sha512""
        ],
        ""keytype"": ""ed25519"",
        ""keyval"": {
          ""public"": ""d482fa4805a50870aa1356ace6b764f7ab47ed4dc38f49b1a189afa25f179e94""
        },
        ""scheme"": ""ed25519""
      },
      ""aa3255b4e8e17e566d2bdbea0e5842978f9fa1d2fa9ec76ae76b146164acbfc8"": {
        ""keyid_hash_algorithms"": [
          ""sha256"",
          ""sha512""
        ],
        ""keytype"": ""ed25519"",
        ""keyval"": {
          ""public"": ""8656ad20568cd3534c405e4d9a84b0c6e6163f7f66434df77416502835b9b160""
        },
        ""scheme"": ""ed25519""
      },
      ""b2403f96ae9b1089d8cbc15bbc35e9acbacd7984571f951b43aab56aedcfa84f"": {
        ""keyid_hash_algorithms"": [
          ""sha256"",
          ""sha512""
        ],
        ""keytype"": ""ed25519"",
        ""keyval"": {
          ""public"": ""153986a7370e002f377dd68797e7466c421180c1571e233de2f8ab41c8af4f54""
        },
        ""scheme"": ""ed25519""
      },
      ""bc8f087663855564b358ddf314d5932ab920af17bd1df2f58b397afd82d76dc1"": {
        ""keyid_hash_algorithms"": [
          ""sha256"",
          ""sha512""
        ],
        ""keytype"": ""ed25519"",
        ""keyval"": {
          ""public"": ""aee574e56780ea1709a8b56e02d4ffdd9a3a1deaed61e2eb0701f376a4422e42""
        },
        ""scheme"": ""ed25519""
      }
    },
    ""roles"": {
      ""root"": {
        ""keyids"": [
          ""b2403f96ae9b1089d8cbc15bbc35e9acbacd7984571f951b43aab56aedcfa84f""
        ],
        ""threshold"": 1
      },
      ""snapshot"": {
        ""keyids"": [
          ""289e5a9e71afd7909326aa4caea92f7557ee0e2283d8c31f0c3401ce67248a45""
        ],
        ""threshold"": 1
      },
      ""targets"": {
        ""keyids"": [
          ""bc8f087663855564b358ddf314d5932ab920af17bd1df2f58b397afd82d76dc1""
        ],
        ""threshold"": 1
      },
      ""timestamp"": {
        ""keyids"": [
          ""aa3255b4e8e17e566d2bdbea0e5842978f9fa1d2fa9ec76ae76b146164acbfc8""
        ],
        ""threshold"": 1
      }
    },
    ""spec_version"": ""1.0"",
    ""version"": 3
  }
}".

(* 3.snapshot.json, first in 2 *)
Definition data_11 : bytes := "{
  ""signatures"": [
    {
      ""keyid"": ""289e5a9e71afd7909326aa4caea92f7557ee0e2283d8c31f0c3401ce67248a45"",
      ""sig"": ""88450c663d32ed78e937ba759c106349bf94c1c44307ef07191cb595a7e4328abcea952134533f2ef5d7ce56d0ca68899636d3037e497d2f034b5e4ba27b3c00""
    }
  ],
  ""signed"": {
    ""_type"": ""snapshot"",
    ""expires"": ""2100-01-01T00:00:00Z"",
    ""meta"": {
      ""targets.json"": {
        ""hashes"": {
          ""sha256"": ""d9b3218dc3c3527b24f851212f352aa3d4ca07c40552a130b7ca45105ca96fa7""
        },
        ""length"": 893,
        ""version"": 3
      }
    },
    ""spec_version"": ""1.0"",
    ""version"": 3
  }
}".

(* 3.targets.json, first in 2 *)
Definition data_12 : bytes := "{
  ""signatures"": [
    {
      ""keyid"": ""bc8f087663855564b358ddf314d5932ab920af17bd1df2f58b397afd82d76dc1"",
      ""sig"": ""e19dc8a26f209a8422b21b71d1f0c2ffd5e2eea9d0f8848ca8395c496735860bafd28b62deb8f439a3b2e957494f751eca28399e406e062a0591e1549ab86508""
    }
  ],
  ""signed"": {
    ""_type"": ""targets"",
    ""expires"": ""2100-01-01T00:00:00Z"",
    ""spec_version"": ""1.0"",
    ""targets"": {
      ""0"": {
        ""hashes"": {
          ""sha256"": ""5feceb66ffc86f38d952786c6d696c79c2dbc239dd4e91b46729d73a27fb57e9""
        },
        ""length"": 1
      },
      ""1"": {
        ""hashes"": {
          ""sha256"": ""6b86b273ff34fce19d6b804eff5a3f5747ada4eaa22f1d49c01e52ddb7875b4b""
        },
        ""length"": 1
      },
      ""2"": {
        ""hashes"": {
          ""sha256"": ""d4735e3a265e16eee03f59718b9b5d03019c07d8b6c51f90da3a666eec13ab35""
        },
        ""length"": 1
      }
    },
    ""version"": 3
  }
}".

(* timestamp.json, first in 2 *)
Definition data_13 : bytes := "{
  ""signatures"": [
    {
      ""keyid"": ""aa3255b4e8e17e566d2bdbea0e5842978f9fa1d2fa9ec76ae76b146164acbfc8"",
      ""sig"": ""6090861afdf2b0dc5b899291d4ff3af9ab731b84660351a929c649b6cd5e0db6c63f480ffdbd70d9d22fd09f7144fae54df5c8db8a37757a3d0b83fce6acda09""
    }
  ],
  ""signed"": {
    ""_type"": ""timestamp"",
    ""expires"": ""2100-01-01T00:00:00Z"",
    ""meta"": {
      ""snapshot.json"": {
        ""hashes"": {
          ""sha256"": ""94fc023ccf37a06e6264117a3908f678f348b0a200faed236e68c1457b1faec3""
        },
        ""length"": 606,
        ""version"": 3
      }
    },
    ""spec_version"": ""1.0"",
    ""version"": 3
  }
}".

(* targets/d4735e3a265e16eee03f59718b9b5d03019c07d8b6c51f90da3a666eec13ab35.2, first in 2 *)
Definition data_14 : bytes := "2".

(* 4.root.json, first in 3 *)
Definition data_15 : bytes := "{
  ""signatures"": [
    {
      ""keyid"": ""b2403f96ae9b1089d8cbc15bbc35e9acbacd7984571f951b43aab56aedcfa84f"",
      ""sig"": ""15431a0217deb636e2e79876cfdfc8b78fdda1119e6c8512c7dc61af240a7d2303f172e7fc28de7dfe58d92c84f5118ccd09d0f29f49aaa3f7ef95edf21e2d0a""
    }
  ],
  ""signed"": {
    ""_type"": ""root"",
    ""consistent_snapshot"": true,
    ""expires"": ""2100-01-01T00:00:00Z"",
    ""keys"": {
      ""aa3255b4e8e17e566d2bdbea0e5842978f9fa1d2fa9ec76ae76b146164acbfc8"": {
        ""keyid_hash_algorithms"": [
          ""sha256"",
          ""sha512""
        ],
        ""keytype"": ""ed25519"",
        ""keyval"": {
          ""public"": ""8656ad20568cd3534c405e4d9a84b0c6e6163f7f66434df77416502835b9b160""
        },
        ""scheme"": ""ed25519""
      },
      ""b096bc2d67080cec22e6c0bbaa69cfd9d714b9e9ad847d255f950b2728855fef"": {
        ""keyid_hash_algorithms"": [
          ""sha256"",
          ""sha512""
        ],
        ""keytype"": ""ed25519"",
        ""keyval"": {
          ""public"": ""722dbc861813bb5b568524d62083e875c08e66fed1694d9161d253fa163dd86f""
        },
        ""scheme"": ""ed25519""
      },
      ""b2403f96ae9b1089d8cbc15bbc35e9acbacd7984571f951b43aab56aedcfa84f"": {
        ""keyid_hash_algorithms"": [
          ""sha256"",
          ""sha512""
        ],
        ""keytype"": ""ed25519"",
        ""keyval"": {
          ""public"": ""153986a7370e002f377dd68797e7466c421180c1571e233de2f8ab41c8af4f54""
        },
        ""scheme"": ""ed25519""
      },
      ""bc8f087663855564b358ddf314d5932ab920af17bd1df2f58b397afd82d76dc1"": {
        ""keyid_hash_algorithms"": [
          ""sha256"",
          ""sha512""
        ],
        ""keytype"": ""ed25519"",
        ""keyval"": {
          ""public"": ""aee574e56780ea1709a8b56e02d4ffdd9a3a1deaed61e2eb0701f376a4422e42""
        },
        ""scheme"": ""ed25519""
      }
    },
    ""roles"": {
      ""root"": {
        ""keyids"": [
          ""b2403f96ae9b1089d8cbc15bbc35e9acbacd7984571f951b43aab56aedcfa84f""
        ],
        ""threshold"": 1
      },
      ""snapshot"": {
        ""keyids"": [
          ""b096bc2d67080cec22e6c0bbaa69cfd9d714b9e9ad847d255f950b2728855fef""
        ],
        ""threshold"": 1
      },
      ""targets"": {
        ""keyids"": [
          ""bc8f087663855564b358ddf314d5932ab920af17bd1df2f58b397afd82d76dc1""
        ],
        ""threshold"": 1
      },
      ""timestamp"": {
        ""keyids"": [
          ""aa3255b4e8e17e566d2bdbea0e5842978f9fa1d2fa9ec76ae76b146164acbfc8""
        ],
        ""threshold"": 1
      }
    },
    ""spec_version"": ""1.0"",
    ""version"": 4
  }
}".

(* 4.snapshot.json, first in 3 *)
Definition data_16 : bytes := "{
  ""signatures"": [
    {
      ""keyid"": ""b096bc2d67080cec22e6c0bbaa69cfd9d714b9e9ad847d255f950b2728855fef"",
      ""sig"": ""46ec63e7984f022a3338eacb86e385f5dc464ec72ec876735b3522d5857ceef8a7f44264e3bc326233e54717c488e7ae37c72226ca62f1c75ab9000436ffff0f""
    }
  ],
  ""signed"": {
    ""_type"": ""snapshot"",
    ""expires"": ""2100-01-01T00:00:00Z"",
    ""meta"": {
      ""targets.json"": {
        ""hashes"": {
          ""sha256"": ""618ad46b2eb62ce9842ebd490b4e6f38d34c1c9318b43bd87dc2fe963a2acbfc""
        },
        ""length"": 1053,
        ""version"": 4
      }
    },
    ""spec_version"": ""1.0"",
    ""version"": 4
  }
}".

(* 4.targets.json, first in 3 *)
Definition data_17 : bytes := "{
  ""signatures"": [
    {
      ""keyid"": ""bc8f087663855564b358ddf314d5932ab920af17bd1df2f58b397afd82d76dc1"",
      ""sig"": ""44c8222aedd3e8e5818f12cf6373ebe025487212db45eeb479330f69f14de163e212541bd1d0aa1c294da901be866241209182033e3874416e023d4963d78905""
    }
  ],
  ""signed"": {
    ""_type"": ""targets"",
    ""expires"": ""2100-01-01T00:00:00Z"",
    ""spec_version"": ""1.0"",
    ""targets"": {
      ""0"": {
        ""hashes"": {
          ""sha256"": ""5feceb66ffc86f38d952786c6d696c79c2dbc239dd4e91b46729d73a27fb57e9""
        },
        ""length"": 1
      },
      ""1"": {
        ""hashes"": {
          ""sha256"": ""6b86b273ff34fce19d6b804eff5a3f5747ada4eaa22f1d49c01e52ddb7875b4b""
        },
        ""length"": 1
      },
      ""2"": {
        ""hashes"": {
          ""sha256"": ""d4735e3a265e16eee03f59718b9b5d03019c07d8b6c51f90da3a666eec13ab35""
        },
        ""length"": 1
      },
      ""3"": {
        ""hashes"": {
          ""sha256"": ""4e07408562bedb8b60ce05c1decfe3ad16b72230967de01f640b7e4729b49fce""
        },
        ""length"": 1
      }
    },
    ""version"": 4
  }
}".

(* timestamp.json, first in 3 *)
Definition data_18 : bytes := "{
  ""signatures"": [
    {
      ""keyid"": ""aa3255b4e8e17e566d2bdbea0e5842978f9fa1d2fa9ec76ae76b146164acbfc8"",
      ""sig"": ""92f5824f6ec91a018362ec9da77f0f44b5894ae1d1cdc4aa21149c652842e9056208e2f7b6aa579a93169bf7ee32ae0933f4494ed6a4dbeb294eac6ad548510f""
    }
  ],
  ""signed"": {
    ""_type"": ""timestamp"",
    ""expires"": ""2100-01-01T00:00:00Z"",
    ""meta"": {
      ""snapshot.json"": {
        ""hashes"": {
          ""sha256"": ""4071731205e7ab717878f787ce16709bf4fe7794c1f16a2ee275d8dafe435f4f""
        },
        ""length"": 607,
        ""version"": 4
      }
    },
    ""spec_version"": ""1.0"",
    ""version"": 4
  }
}".

(* targets/4e07408562bedb8b60ce05c1decfe3ad16b72230967de01f640b7e4729b49fce.3, first in 3 *)
Definition data_19 : bytes := "3".

(* 5.root.json, first in 4 *)
Definition data_20 : bytes := "{
  ""signatures"": [
    {
      ""keyid"": ""b2403f96ae9b1089d8cbc15bbc35e9acbacd7984571f951b43aab56aedcfa84f"",
      ""sig"": ""2b6f30258eaf8b4b2d900a2efb4a597b45a9c0c5a0720d5521dd37d63c34d1db62aafaa1d95b6d881f9c991615ab68930c24ef247d2f45836bca3659e36d9c0b""
    }
  ],
  ""signed"": {
    ""_type"": ""root"",
    ""consistent_snapshot"": true,
    ""expires"": ""2100-01-01T00:00:00Z"",
    ""keys"": {
      ""a8eaf6de5aecfd0a72b60295b1e1cd12f349079ebcbbb63dbe7072f162e85315"": {
        ""keyid_hash_algorithms"": [
          ""sha256"",
          ""sha512""
        ],
        ""keytype"": ""ed25519"",
        ""keyval"": {
          ""public"": ""3ab34b0c2d4eadccaa0f0cf22ced07b552394063a9de2806993d022360dffc76""
        },
        ""scheme"": ""ed25519""
      },
      ""b096bc2d67080cec22e6c0bbaa69cfd9d714b9e9ad847d255f950b2728855fef"": {
        ""keyid_hash_algorithms"": [
          ""sha256"",
          ""sha512""
        ],
        ""keytype"": ""ed25519"",
        ""keyval"": {
          ""public"": ""722dbc861813bb5b568524d62083e875c08e66fed1694d9161d253fa163dd86f""
        },
        ""scheme"": ""ed25519""
      },
      ""b2403f96ae9b1089d8cbc15bbc35e9acbacd7984571f951b43aab56aedcfa84f"": {
        ""keyid_hash_algorithms"": [
          ""sha256"",
          ""sha512""
        ],
        ""keytype"": ""ed25519"",
        ""keyval"": {
          ""public"": ""153986a7370e002f377dd68797e7466c421180c1571e233de2f8ab41c8af4f54""
        },
        ""scheme"": ""ed25519""
      },
      ""bc8f087663855564b358ddf314d5932ab920af17bd1df2f58b397afd82d76dc1"": {
        ""keyid_hash_algorithms"": [
          ""sha256"",
          ""sha512""
        ],
        ""keytype"": ""ed25519"",
        ""keyval"": {
          ""public"": ""aee574e56780ea1709a8b56e02d4ffdd9a3a1deaed61e2eb0701f376a4422e42""
        },
        ""scheme"": ""ed25519""
      }
    },
    ""roles"": {
      ""root"": {
        ""keyids"": [
          ""b2403f96ae9b1089d8cbc15bbc35e9acbacd7984571f951b43aab56aedcfa84f""
        ],
        ""threshold"": 1
      },
      ""snapshot"": {
        ""keyids"": [
          ""b096bc2d67080cec22e6c0bbaa69cfd9d714b9e9ad847d255f950b2728855fef""
        ],
        ""threshold"": 1
      },
      ""targets"": {
        ""keyids"": [
          ""bc8f087663855564b358ddf314d5932ab920af17bd1df2f58b397afd82d76dc1""
        ],
        ""threshold"": 1
      },
      ""timestamp"": {
        ""keyids"": [
          ""a8eaf6de5aecfd0a72b60295b1e1cd12f349079ebcbbb63dbe7072f162e85315""
        ],
        ""threshold"": 1
      }
    },
    ""spec_version"": ""1.0"",
    ""version"": 5
  }
}".

(* 5.snapshot.json, first in 4 *)
Definition data_21 : bytes := "{
  ""signatures"": [
    {
      ""keyid"": ""b096bc2d67080cec22e6c0bbaa69cfd9d714b9e9ad847d255f950b2728855fef"",
      ""sig"": ""e909ae39d5724cb05788dac7b81f7c91bb2f1a9badebeb09a485b58665f6d471090df92c5bf76a92fd36e5af0655b144cfc2cd8a1d11de3fc43f739145c5fa02""
    }
  ],
  ""signed"": {
    ""_type"": ""snapshot"",
    ""expires"": ""2100-01-01T00:00:00Z"",
    ""meta"": {
      ""targets.json"": {
        ""hashes"": {
          ""sha256"": ""e981f082145fd093e0469ad7f88f6cc2b9ccc8058e6b081b4f85eea0178e72ad""
        },
        ""length"": 1213,
        ""version"": 5
      }
    },
    ""spec_version"": ""1.0"",
    ""version"": 5
  }
}".

(* 5.targets.json, first in 4 *)
Definition data_22 : bytes := "{
  ""signatures"": [
    {
      ""keyid"": ""bc8f087663855564b358ddf314d5932ab920af17bd1df2f58b397afd82d76dc1"",
      ""sig"": ""c88a8309f966fb794f41acf864c2b204ecb32ada9c4f4844657fa67f174735f75bdd799dfe6850ea8a775b8d2acba5bf82def8b909d3633a0f289eb246cd9f05""
    }
  ],
  ""signed"": {
    ""_type"": ""targets"",
    ""expires"": ""2100-01-01T00:00:00Z"",
    ""spec_version"": ""1.0"",
    ""targets"": {
      ""0"": {
        ""hashes"": {
          ""sha256"": ""5feceb66ffc86f38d952786c6d696c79c2dbc239dd4e91b46729d73a27fb57e9""
        },
        ""length"": 1
      },
      ""1"": {
        ""hashes"": {
          ""sha256"": ""6b86b273ff34fce19d6b804eff5a3f5747ada4eaa22f1d49c01e52ddb7875b4b""
        },
        ""length"": 1
      },
      ""2"": {
        ""hashes"": {
          ""sha256"": ""d4735e3a265e16eee03f59718b9b5d03019c07d8b6c51f90da3a666eec13ab35""
        },
        ""length"": 1
      },
      ""3"": {
        ""hashes"": {
          ""sha256"": ""4e07408562bedb8b60ce05c1decfe3ad16b72230967de01f640b7e4729b49fce""
        },
        ""length"": 1
      },
      ""4"": {
        ""hashes"": {
          ""sha256"": ""4b227777d4dd1fc61c6f884f48641d02b4d121d3fd328cb08b5531fcacdabf8a""
        },
        ""length"": 1
      }
    },
    ""version"": 5
  }
}".

(* timestamp.json, first in 4 *)
Definition data_23 : bytes := "{
  ""signatures"": [
    {
      ""keyid"": ""a8eaf6de5aecfd0a72b60295b1e1cd12f349079ebcbbb63dbe7072f162e85315"",
      ""sig"": ""8388bf58e18024922f5c24f091cf372d3991f3aa7fbe85ce68d81cb12c894bd422d542f1e9d9d1f83ab5957db50692f974476a2dcc9ee8c7f0ad5b16e4a05801""
    }
  ],
  ""signed"": {
    ""_type"": ""timestamp"",
    ""expires"": ""2100-01-01T00:00:00Z"",
    ""meta"": {
      ""snapshot.json"": {
        ""hashes"": {
          ""sha256"": ""fce145d30b6375b4eba810a95f143cf8e6209b37f696ce10fe084f0e0ca09bd5""
        },
        ""length"": 607,
        ""version"": 5
      }
    },
    ""spec_version"": ""1.0"",
    ""version"": 5
  }
}".

(* targets/4b227777d4dd1fc61c6f884f48641d02b4d121d3fd328cb08b5531fcacdabf8a.4, first in 4 *)
Definition data_24 : bytes := "4".

(* 6.root.json, first in 5 *)
Definition data_25 : bytes := "{
  ""signatures"": [
    {
      ""keyid"": ""b2403f96ae9b1089d8cbc15bbc35e9acbacd7984571f951b43aab56aedcfa84f"",
      ""sig"": ""992e80ded22ecccfbf6b09b9e43a953d8247e97624f9b0a40f262dcfe93a94b0126bde5f3b79ec7d21cdd6c95324de3efaba59f9dab77bfd80d9d400a4c3be0a""
    }
  ],
  ""signed"": {
    ""_type"": ""root"",
    ""consistent_snapshot"": true,
    ""expires"": ""2100-01-01T00:00:00Z"",
    ""keys"": {
      ""a8eaf6de5aecfd0a72b60295b1e1cd12f349079ebcbbb63dbe7072f162e85315"": {
        ""keyid_hash_algorithms"": [
          ""sha256"",
          ""sha512""
        ],
        ""keytype"": ""ed25519"",
        ""keyval"": {
          ""public"": ""3ab34b0c2d4eadccaa0f0cf22ced07b552394063a9de2806993d022360dffc76""
        },
        ""scheme"": ""ed25519""
      },
      ""b096bc2d67080cec22e6c0bbaa69cfd9d714b9e9ad847d255f950b2728855fef"": {
        ""keyid_hash_algorithms"": [
          ""sha256"",
          ""sha512""
        ],
        ""keytype"": ""ed25519"",
        ""keyval"": {
          ""public"": ""722dbc861813bb5b568524d62083e875c08e66fed1694d9161d253fa163dd86f""
        },
        ""scheme"": ""ed25519""
      },
      ""b2403f96ae9b1089d8cbc15bbc35e9acbacd7984571f951b43aab56aedcfa84f"": {
        ""keyid_hash_algorithms"": [
          ""sha256"",
          ""sha512""
        ],
        ""keytype"": ""ed25519"",
        ""keyval"": {
          ""public"": ""153986a7370e002f377dd68797e7466c421180c1571e233de2f8ab41c8af4f54""
        },
        ""scheme"": ""ed25519""
      },
      ""bc8f087663855564b358ddf314d5932ab920af17bd1df2f58b397afd82d76dc1"": {
        ""keyid_hash_algorithms"": [
          ""sha256"",
          ""sha512""
        ],
        ""keytype"": ""ed25519"",
        ""keyval"": {
          ""public"": ""aee574e56780ea1709a8b56e02d4ffdd9a3a1deaed61e2eb0701f376a4422e42""
        },
        ""scheme"": ""ed25519""
      }
    },
    ""roles"": {
      ""root"": {
        ""keyids"": [
          ""b2403f96ae9b1089d8cbc15bbc35e9acbacd7984571f951b43aab56aedcfa84f""
        ],
        ""threshold"": 1
      },
      ""snapshot"": {
        ""keyids"": [
          ""b096bc2d67080cec22e6c0bbaa69cfd9d714b9e9ad847d255f950b2728855fef""
        ],
        ""threshold"": 1
      },
      ""targets"": {
        ""keyids"": [
          ""bc8f087663855564b358ddf314d5932ab920af17bd1df2f58b397afd82d76dc1""
        ],
        ""threshold"": 1
      },
      ""timestamp"": {
        ""keyids"": [
          ""a8eaf6de5aecfd0a72b60295b1e1cd12f349079ebcbbb63dbe7072f162e85315""
        ],
        ""threshold"": 1
      }
    },
    ""spec_version"": ""1.0"",
    ""version"": 6
  }
}".

(* 6.snapshot.json, first in 5 *)
Definition data_26 : bytes := "{
  ""signatures"": [
    {
      ""keyid"": ""b096bc2d67080cec22e6c0bbaa69cfd9d714b9e9ad847d255f950b2728855fef"",
      ""sig"": ""f3944db41af91bf423e6615d58ab53946266190a74a791fb0bd0dc54b2a355666c116616ee377322161d49d6c34560f1a845fd375deaa4e3489ccbcdfccca604""
    }
  ],
  ""signed"": {
    ""_type"": ""snapshot"",
    ""expires"": ""2100-01-01T00:00:00Z"",
    ""meta"": {
      ""targets.json"": {
        ""hashes"": {
          ""sha256"": ""c9d177e880cb5e0f9d3c03c5e6e3afff18633dbf8299d6fd30e21d56f4b7a7cd""
        },
        ""length"": 1373,
        ""version"": 6
      }
    },
    ""spec_version"": ""1.0"",
    ""version"": 6
  }
}".

(* 6.targets.json, first in 5 *)
Definition data_27 : bytes := "{
  ""signatures"": [
    {
      ""keyid"": ""bc8f087663855564b358ddf314d5932ab920af17bd1df2f58b397afd82d76dc1"",
      ""sig"": ""5a69e9de1f932e72dc54d3df21fbe4b601203fe1a1b9d84cf9ac5f964639ff996718432a1fe6f90e44275423b0acea173ba0a5706db14b217864ca8639f99c03""
    }
  ],
  ""signed"": {
    ""_type"": ""targets"",
    ""expires"": ""2100-01-01T00:00:00Z"",
    ""spec_version"": ""1.0"",
    ""targets"": {
      ""0"": {
        ""hashes"": {
          ""sha256"": ""5feceb66ffc86f38d952786c6d696c79c2dbc239dd4e91b46729d73a27fb57e9""
        },
        ""length"": 1
      },
      ""1"": {
        ""hashes"": {
          ""sha256"": ""6b86b273ff34fce19d6b804eff5a3f5747ada4eaa22f1d49c01e52ddb7875b4b""
        },
        ""length"": 1
      },
      ""2"": {
        ""hashes"": {
          ""sha256"": ""d4735e3a265e16eee03f59718b9b5d03019c07d8b6c51f90da3a666eec13ab35""
        },
        ""length"": 1
      },
      ""3"": {
        ""hashes"": {
          ""sha256"": ""4e07408562bedb8b60ce05c1decfe3ad16b72230967de01f640b7e4729b49fce""
        },
        ""length"": 1
      },
      ""4"": {
        ""hashes"": {
          ""sha256"": ""4b227777d4dd1fc61c6f884f48641d02b4d121d3fd328cb08b5531fcacdabf8a""
        },
        ""length"": 1
      },
      ""5"": {
        ""hashes"": {
          ""sha256"": ""ef2d127de37b942baad06145e54b0c619a1f22327b2ebbcfbec78f5564afe39d""
        },
        ""length"": 1
      }
    },
    ""version"": 6
  }
}".

(* timestamp.json, first in 5 *)
Definition data_28 : bytes := "{
  ""signatures"": [
    {
      ""keyid"": ""a8eaf6de5aecfd0a72b60295b1e1cd12f349079ebcbbb63dbe7072f162e85315"",
      ""sig"": ""95ff2508f9913723413ab07e61c21932080af120a162a28b02c5a07eaebe1a9211b30889c44f30dbfa194f7718b059db47046e5e3aea08b5dbbed4b29757140d""
    }
  ],
  ""signed"": {
    ""_type"": ""timestamp"",
    ""expires"": ""2100-01-01T00:00:00Z"",
    ""meta"": {
      ""snapshot.json"": {
        ""hashes"": {
          ""sha256"": ""c36eec1e1c876d3cd3be47ecd7f962a1e50dae30be7ab09943c2160b8c28ca8c""
        },
        ""length"": 607,
        ""version"": 6
      }
    },
    ""spec_version"": ""1.0"",
    ""version"": 6
  }
}".

(* targets/ef2d127de37b942baad06145e54b0c619a1f22327b2ebbcfbec78f5564afe39d.5, first in 5 *)
Definition data_29 : bytes := "5".

Definition data_step0 : list (list string * bytes) :=
  [(["repository"; "1.root.json"], data_0);
   (["repository"; "1.snapshot.json"], data_1);
   (["repository"; "1.targets.json"], data_2);
   (["repository"; "root.json"], data_0);
   (["repository"; "targets"; "5feceb66ffc86f38d952786c6d696c79c2dbc239dd4e91b46729d73a27fb57e9.0"], data_4);
   (["repository"; "timestamp.json"], data_3)].

Definition data_step1 : list (list string * bytes) :=
  [(["repository"; "1.root.json"], data_0);
   (["repository"; "1.snapshot.json"], data_1);
   (["repository"; "1.targets.json"], data_2);
   (["repository"; "2.root.json"], data_5);
   (["repository"; "2.snapshot.json"], data_6);
   (["repository"; "2.targets.json"], data_7);
   (["repository"; "root.json"], data_5);
   (["repository"; "targets"; "5feceb66ffc86f38d952786c6d696c79c2dbc239dd4e91b46729d73a27fb57e9.0"], data_4);
   (["repository"; "targets"; "6b86b273ff34fce19d6b804eff5a3f5747ada4eaa22f1d49c01e52ddb7875b4b.1"], data_9);
   (["repository"; "timestamp.json"], data_8)].

Definition data_step2 : list (list string * bytes) :=
  [(["repository"; "1.root.json"], data_0);
   (["repository"; "1.snapshot.json"], data_1);
   (["repository"; "1.targets.json"], data_2);
   (["repository"; "2.root.json"], data_5);
   (["repository"; "2.snapshot.json"], data_6);
   (["repository"; "2.targets.json"], data_7);
   (["repository"; "3.root.json"], data_10);
   (["repository"; "3.snapshot.json"], data_11);
   (["repository"; "3.targets.json"], data_12);
   (["repository"; "root.json"], data_10);
   (["repository"; "targets"; "5feceb66ffc86f38d952786c6d696c79c2dbc239dd4e91b46729d73a27fb57e9.0"], data_4);
   (["repository"; "targets"; "6b86b273ff34fce19d6b804eff5a3f5747ada4eaa22f1d49c01e52ddb7875b4b.1"], data_9);
   (["repository"; "targets"; "d4735e3a265e16eee03f59718b9b5d03019c07d8b6c51f90da3a666eec13ab35.2"], data_14);
   (["repository"; "timestamp.json"], data_13)].

Definition data_step3 : list (list string * bytes) :=
  [(["repository"; "1.root.json"], data_0);
   (["repository"; "1.snapshot.json"], data_1);
   (["repository"; "1.targets.json"], data_2);
   (["repository"; "2.root.json"], data_5);
   (["repository"; "2.snapshot.json"], data_6);
   (["repository"; "2.targets.json"], data_7);
   (["repository"; "3.root.json"], data_10);
   (["repository"; "3.snapshot.json"], data_11);
   (["repository"; "3.targets.json"], data_12);
   (["repository"; "4.root.json"], data_15);
   (["repository"; "4.snapshot.json"], data_16);
   (["repository"; "4.targets.json"], data_17);
   (["repository"; "root.json"], data_15);
   (["repository"; "targets"; "4e07408562bedb8b60ce05c1decfe3ad16b72230967de01f640b7e4729b49fce.3"], data_19);
   (["repository"; "targets"; "5feceb66ffc86f38d952786c6d696c79c2dbc239dd4e91b46729d73a27fb57e9.0"], data_4);
   (["repository"; "targets"; "6b86b273ff34fce19d6b804eff5a3f5747ada4eaa22f1d49c01e52ddb7875b4b.1"], data_9);
   (["repository"; "targets"; "d4735e3a265e16eee03f59718b9b5d03019c07d8b6c51f90da3a666eec13ab35.2"], data_14);
   (["repository"; "timestamp.json"], data_18)].

Definition data_step4 : list (list string * bytes) :=
  [(["repository"; "1.root.json"], data_0);
   (["repository"; "1.snapshot.json"], data_1);
   (["repository"; "1.targets.json"], data_2);
   (["repository"; "2.root.json"], data_5);
   (["repository"; "2.snapshot.json"], data_6);
   (["repository"; "2.targets.json"], data_7);
   (["repository"; "3.root.json"], data_10);
   (["repository"; "3.snapshot.json"], data_11);
   (["repository"; "3.targets.json"], data_12);
   (["repository"; "4.root.json"], data_15);
   (["repository"; "4.snapshot.json"], data_16);
   (["repository"; "4.targets.json"], data_17);
   (["repository"; "5.root.json"], data_20);
   (["repository"; "5.snapshot.json"], data_21);
   (["repository"; "5.targets.json"], data_22);
   (["repository"; "root.json"], data_20);
   (["repository"; "targets"; "4b227777d4dd1fc61c6f884f48641d02b4d121d3fd328cb08b5531fcacdabf8a.4"], data_24);
   (["repository"; "targets"; "4e07408562bedb8b60ce05c1decfe3ad16b72230967de01f640b7e4729b49fce.3"], data_19);
   (["repository"; "targets"; "5feceb66ffc86f38d952786c6d696c79c2dbc239dd4e91b46729d73a27fb57e9.0"], data_4);
   (["repository"; "targets"; "6b86b273ff34fce19d6b804eff5a3f5747ada4eaa22f1d49c01e52ddb7875b4b.1"], data_9);
   (["repository"; "targets"; "d4735e3a265e16eee03f59718b9b5d03019c07d8b6c51f90da3a666eec13ab35.2"], data_14);
   (["repository"; "timestamp.json"], data_23)].

Definition data_step5 : list (list string * bytes) :=
  [(["repository"; "1.root.json"], data_0);
   (["repository"; "1.snapshot.json"], data_1);
   (["repository"; "1.targets.json"], data_2);
   (["repository"; "2.root.json"], data_5);
   (["repository"; "2.snapshot.json"], data_6);
   (["repository"; "2.targets.json"], data_7);
   (["repository"; "3.root.json"], data_10);
   (["repository"; "3.snapshot.json"], data_11);
   (["repository"; "3.targets.json"], data_12);
   (["repository"; "4.root.json"], data_15);
   (["repository"; "4.snapshot.json"], data_16);
   (["repository"; "4.targets.json"], data_17);
   (["repository"; "5.root.json"], data_20);
   (["repository"; "5.snapshot.json"], data_21);
   (["repository"; "5.targets.json"], data_22);
   (["repository"; "6.root.json"], data_25);
   (["repository"; "6.snapshot.json"], data_26);
   (["repository"; "6.targets.json"], data_27);
   (["repository"; "root.json"], data_25);
   (["repository"; "targets"; "4b227777d4dd1fc61c6f884f48641d02b4d121d3fd328cb08b5531fcacdabf8a.4"], data_24);
   (["repository"; "targets"; "4e07408562bedb8b60ce05c1decfe3ad16b72230967de01f640b7e4729b49fce.3"], data_19);
   (["repository"; "targets"; "5feceb66ffc86f38d952786c6d696c79c2dbc239dd4e91b46729d73a27fb57e9.0"], data_4);
   (["repository"; "targets"; "6b86b273ff34fce19d6b804eff5a3f5747ada4eaa22f1d49c01e52ddb7875b4b.1"], data_9);
   (["repository"; "targets"; "d4735e3a265e16eee03f59718b9b5d03019c07d8b6c51f90da3a666eec13ab35.2"], data_14);
   (["repository"; "targets"; "ef2d127de37b942baad06145e54b0c619a1f22327b2ebbcfbec78f5564afe39d.5"], data_29);
   (["repository"; "timestamp.json"], data_28)].

Definition data_steps : list (list (list string * bytes)) := [data_step0; data_step1; data_step2; data_step3; data_step4; data_step5].
