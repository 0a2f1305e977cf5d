[[1919519569386763, 2, [[127, 1], [47, 2], [19, 1], [7, 1], [3, 1]]], [569003, 2, [[419, 1], [97, 1]]], [2773320623, 2, [[569003, 1]]], [72106336199, 2, [[2773320623, 1]]], [75445702479781427272750846543864801, 2, [[1919519569386763, 1], [72106336199, 1]]], [31757755568855353, 2, [[4153, 1], [223, 1], [107, 1], [31, 1]]], [74058212732561358302231226437062788676166966415465897661863160754340907, 2, [[75445702479781427272750846543864801, 1], [31757755568855353, 1]]], [57896044618658097711785492504343953926634992332820282019728792003956564819949, 2, [[74058212732561358302231226437062788676166966415465897661863160754340907, 1]]]]