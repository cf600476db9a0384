*.vo
*.vok
*.vos
*.glob
*.aux
.*.aux
.lia.cache
.nia.cache
*.cache
.Makefile.d
Makefile.conf
rocq/Makefile
rocq/.Makefile.d
