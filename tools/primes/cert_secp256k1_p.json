[[255515944373312847190720520512484175977, 2, [[96557, 1], [41201, 1], [4423, 1], [2657, 1], [1627, 1]]], [205115282021455665897114700593932402728804164701536103180137503955397371, 2, [[255515944373312847190720520512484175977, 1]]], [115792089237316195423570985008687907853269984665640564039457584007908834671663, 2, [[205115282021455665897114700593932402728804164701536103180137503955397371, 1]]]]