[[545358713, 2, [[28181, 1]]], [305873, 2, [[2731, 1]]], [29047611873442575647497758179, 2, [[545358713, 1], [305873, 1], [293, 1]]], [341948486974166000522343609283189, 2, [[29047611873442575647497758179, 1]]], [174723607534414371449, 2, [[120233, 1], [4051, 1], [59, 1]]], [115792089237316195423570985008687907852837564279074904382605163141518161494337, 2, [[341948486974166000522343609283189, 1], [174723607534414371449, 1]]]]